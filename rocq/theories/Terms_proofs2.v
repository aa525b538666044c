(** Proofs about building the terms from JSON, and smoothness at zero density. *)
From Coq Require Import Reals ZArith String List Bool Lia Lra.
From Coquelicot Require Import Coquelicot.
From Verif Require Import Json_model Util_model Numerics_model Vec_spec Vec_proofs Cubic_model Terms_model Terms_spec Terms_proofs.
Import ListNotations.
Open Scope R_scope.

(** ** Functions on [0, inf) that extend to differentiable functions *)
Lemma ext_smooth : forall f : R -> R, (forall x, ex_derive f x) -> extends f.
Proof. intros f H. exists f. split; auto. Qed.
Lemma ext_eq : forall f g, extends f -> (forall x, 0 <= x -> g x = f x) -> extends g.
Proof. intros f g [F [D E]] H. exists F. split; auto. intros. rewrite H by auto. auto. Qed.
Lemma ext_const : forall c, extends (fun _ => c).
Proof. intros. apply ext_smooth. intro. apply ex_derive_const. Qed.
Lemma ext_plus : forall f g, extends f -> extends g -> extends (fun x => f x + g x).
Proof.
  intros f g [F [D E]] [G [D' E']]. exists (fun x => F x + G x). split; [|intros; rewrite E, E' by auto; auto].
  intro x. apply (ex_derive_plus F G); auto.
Qed.
Lemma ext_mult : forall f g, extends f -> extends g -> extends (fun x => f x * g x).
Proof.
  intros f g [F [D E]] [G [D' E']]. exists (fun x => F x * G x). split; [|intros; rewrite E, E' by auto; auto].
  intro x. apply (ex_derive_mult F G); auto.
Qed.
Lemma ext_exp : forall f, extends f -> extends (fun x => exp (f x)).
Proof.
  intros f [F [D E]]. exists (fun x => exp (F x)). split; [|intros; rewrite E by auto; auto].
  intro x. apply (ex_derive_comp exp F); auto. exists (exp (F x)). apply is_derive_exp.
Qed.
Lemma ext_id : extends (fun x => x).
Proof. apply ext_smooth. intro. apply ex_derive_id. Qed.
Lemma ext_opp : forall f, extends f -> extends (fun x => - f x).
Proof. intros f H. apply ext_eq with (fun x => (-1) * f x); [|intros; ring]. apply ext_mult; auto. apply ext_const. Qed.
Lemma ext_minus : forall f g, extends f -> extends g -> extends (fun x => f x - g x).
Proof. intros f g Hf Hg. apply (ext_plus f (fun x => - g x)); auto. apply ext_opp; auto. Qed.
Lemma ext_pow : forall f k, extends f -> extends (fun x => f x ^ k).
Proof. intros f k H. induction k; [exact (ext_const 1)|]. simpl. apply ext_mult; auto. Qed.
Lemma ext_rpow : forall d, natural d -> extends (fun x => rpow x d).
Proof.
  intros d [k [-> _]]. apply ext_eq with (fun x => x ^ k); [apply ext_pow, ext_id|]. intros. apply rpow_nat; auto.
Qed.
Lemma ext_rpowZ : forall z, natural_Z z -> extends (fun x => rpow x (IZR z)).
Proof.
  intros z [Z0 Z1]. apply ext_rpow. exists (Z.to_nat z). rewrite INR_IZR_INZ, Z2Nat.id by lia. split; [reflexivity|lia].
Qed.
Lemma ext_sum : forall N (F : nat -> R -> R), (forall i, (i < N)%nat -> extends (F i)) -> extends (fun x => sumn N (fun i => F i x)).
Proof.
  induction N; intros F H; [exact (ext_const 0)|]. simpl. apply ext_plus; [apply IHN; auto|apply H; lia].
Qed.
Ltac ext := repeat first [apply ext_const | apply ext_id | apply ext_mult | apply ext_minus | apply ext_plus | apply ext_opp |
  apply ext_exp | apply ext_pow | apply ext_rpowZ; apply Forall_nth'; [auto|lia] | apply ext_rpow; apply Forall_nth'; [auto|lia] ].
Lemma textbook_extends : forall t tau, well_formed t -> extends (textbook t tau).
Proof.
  intros t tau W. destruct t; simpl in W; try contradiction; unfold textbook, power_sum;
    repeat match goal with H : _ /\ _ |- _ => destruct H end.
  all: match goal with
    | |- extends (fun x => sumn ?N (fun i => @?F x i)) => apply (ext_sum N (fun i x => F x i)); intros i Hi; cbv beta
    end; ext.
Qed.

Lemma textbook_zero : forall t tau, well_formed t -> List.Forall (fun d => d <> 0) (density_exponents t) -> textbook t tau 0 = 0.
Proof.
  intros t tau W D. destruct t; simpl in W; try contradiction; unfold textbook, power_sum; simpl in D;
    repeat match goal with H : _ /\ _ |- _ => destruct H end.
  all: apply sumn_0; intros i Hi;
    match goal with |- context [rpow 0 (nth i ?d 0)] => assert (X : nth i d 0 <> 0) by (apply (Forall_nth' _ (fun d => d <> 0)); [auto|lia]) end;
    unfold rpow at 1; destruct (Req_EM_T 0 0) as [_|N0]; [|lra]; destruct (Req_EM_T (nth i d 0) 0); [contradiction|ring].
Qed.

(** ** Arrays in JSON documents *)
Lemma valarray_nums : forall l, j_valarray j_double (JArr (map JNum l)) = Val l.
Proof. intro l. simpl. induction l; simpl; [reflexivity|]. rewrite IHl. reflexivity. Qed.
Lemma has_index : forall j k l, has_array j k l -> index j k = JArr (map JNum l).
Proof. intros j k l [ms [-> E]]. simpl. rewrite E. reflexivity. Qed.
Lemma has_at : forall j k l, has_array j k l -> j_at j k = Val (JArr (map JNum l)).
Proof. intros j k l [ms [-> E]]. simpl. rewrite E. reflexivity. Qed.
Lemma has_toeig : forall j k l, has_array j k l -> toeig j k = Some (Val l).
Proof. intros j k l H. unfold toeig. rewrite (has_index _ _ _ H), valarray_nums. reflexivity. Qed.
Lemma has_size : forall j k l, has_array j k l -> j_size (index j k) = length l.
Proof. intros j k l H. rewrite (has_index _ _ _ H). simpl. apply map_length. Qed.
Lemma has_empty : forall j k l, has_array j k l -> j_empty (index j k) = Nat.eqb (length l) 0.
Proof. intros j k l H. rewrite (has_index _ _ _ H). simpl. rewrite map_length. reflexivity. Qed.
Lemma has_eigorzero : forall j k l N, has_array j k l -> eigorzero j N k = Some (Val (if Nat.eqb (length l) 0 then repeat 0 N else l)).
Proof.
  intros j k l N H. unfold eigorzero. rewrite (has_empty _ _ _ H), (has_toeig _ _ _ H). destruct (Nat.eqb _ _); reflexivity.
Qed.
Lemma dedup_const : forall n l, List.Forall (eq n) l -> l <> [] -> length (dedup l) = 1%nat.
Proof.
  intros n l H. induction H as [|a l E H IH]; [congruence|]. intros _. subst a. simpl.
  destruct l as [|b l]; [reflexivity|]. inversion H; subst. simpl existsb. rewrite Nat.eqb_refl. simpl orb.
  apply IH. discriminate.
Qed.
Lemma dedup_in : forall l a, In a l -> In a (dedup l).
Proof.
  induction l as [|b l IH]; intros a H; [destruct H|]. simpl. destruct H as [->|H].
  - destruct (existsb (Nat.eqb a) l) eqn:E; [|left; auto]. apply existsb_exists in E. destruct E as [c [I E]].
    apply Nat.eqb_eq in E. subst c. auto.
  - destruct (existsb (Nat.eqb b) l); [auto|right; auto].
Qed.
Lemma dedup_one : forall l a b, length (dedup l) = 1%nat -> In a l -> In b l -> a = b.
Proof.
  intros l a b L A B. apply dedup_in in A. apply dedup_in in B. destruct (dedup l) as [|c [|]]; try discriminate.
  destruct A as [->|[]]. destruct B as [->|[]]. reflexivity.
Qed.
(** the sizes that [all_same_length] compares *)
Definition sizes (j : json) (ks : list string) (ns : list nat) : Prop := Forall2 (fun k n => exists v, j_at j k = Val v /\ j_size v = n) ks ns.
Lemma same_length_sizes : forall j ks ns, sizes j ks ns -> all_same_length j ks = Val (Nat.eqb (length (dedup ns)) 1).
Proof.
  intros j ks ns H. unfold all_same_length.
  assert (E : map_res (fun k => bind (j_at j k) (fun v => Val (j_size v))) ks = Val ns).
  { induction H as [|k n ks ns [v [A S]] H IH]; [reflexivity|]. simpl. rewrite A. simpl. rewrite IH, S. reflexivity. }
  rewrite E. reflexivity.
Qed.
Lemma size_array : forall j k l, has_array j k l -> exists v, j_at j k = Val v /\ j_size v = length l.
Proof. intros j k l H. exists (JArr (map JNum l)). split; [apply has_at; auto|simpl; apply map_length]. Qed.

(** ** Casts *)
Lemma to_int_range : forall x z, to_int x = Some z -> (z < 2 ^ 31)%Z /\ z = trunc x.
Proof.
  intros x z H. unfold to_int in H. destruct (_ && _) eqn:C; [|discriminate]. injection H as <-.
  apply andb_true_iff in C. destruct C as [C1 C2]. apply Z.ltb_lt in C2. auto.
Qed.
Lemma trunc_nonneg : forall x, 0 <= x -> (0 <= trunc x)%Z.
Proof.
  intros x H. unfold trunc. destruct (Rle_dec 0 x); [|contradiction]. destruct (base_Int_part x) as [_ B].
  apply lt_IZR in B || (assert (-1 < IZR (Int_part x)) by lra; apply (lt_IZR (-1)) in H0; lia).
Qed.
Lemma cast_length : forall l li, cast_int l = Some li -> length li = length l.
Proof.
  induction l as [|x l IH]; simpl; intros li E; [injection E as <-; auto|].
  destruct (to_int x); [|discriminate]. simpl in E. destruct (cast_int l) eqn:C; [|discriminate]. simpl in E. injection E as <-.
  simpl. f_equal. auto.
Qed.
Lemma cast_natural : forall l li, cast_int l = Some li -> List.Forall (fun x => 0 <= x) l -> List.Forall natural_Z li.
Proof.
  induction l as [|x l IH]; simpl; intros li E P; [injection E as <-; constructor|].
  destruct (to_int x) eqn:T; [|discriminate]. simpl in E. destruct (cast_int l) eqn:C; [|discriminate]. simpl in E. injection E as <-.
  inversion P; subst. constructor; auto. apply to_int_range in T. destruct T as [T1 ->]. split; auto. apply trunc_nonneg; auto.
Qed.
Lemma integers_eq : forall l li, length li = length l -> all_integers l li = true -> l = map IZR li.
Proof.
  induction l as [|x l IH]; intros [|z li] L E; try discriminate; [reflexivity|].
  unfold all_integers in E. simpl in E. apply andb_true_iff in E. destruct E as [E1 E2]. simpl. f_equal; [|apply IH; auto].
  unfold is_zero in E1. destruct (Req_EM_T (x - IZR z) 0); [lra|discriminate].
Qed.
Lemma cast_nat : forall l, List.Forall natural l -> exists li, cast_int l = Some li /\ l = map IZR li.
Proof.
  induction 1 as [|x l [k [-> K]] H [li [C E]]]; [exists []; auto|].
  exists (Z.of_nat k :: li). simpl. rewrite to_int_nat by auto. simpl. rewrite C. simpl. split; auto.
  rewrite INR_IZR_INZ. congruence.
Qed.
Lemma cast_zeros : forall N, cast_int (repeat 0 N) = Some (repeat 0%Z N).
Proof.
  induction N; [reflexivity|]. simpl. change 0 with (INR 0). rewrite to_int_nat by lia. simpl in *. rewrite IHN. reflexivity.
Qed.
Lemma integers_refl : forall li, all_integers (map IZR li) li = true.
Proof.
  induction li; [reflexivity|]. unfold all_integers in *. simpl. rewrite IHli. unfold is_zero.
  destruct (Req_EM_T (IZR a - IZR a) 0); [reflexivity|lra].
Qed.

(** ** Splitting *)
Lemma sumn_app : forall k m (f : nat -> R), sumn (k + m) f = sumn k f + sumn m (fun i => f (k + i)%nat).
Proof.
  intros k m f. induction m; [rewrite Nat.add_0_r; simpl; ring|]. rewrite Nat.add_succ_r. simpl. rewrite IHm. ring.
Qed.
Lemma list_sum_zero : forall l, List.Forall (fun x => 0 <= x) l -> list_sum l = 0 -> List.Forall (fun x => x = 0) l.
Proof.
  assert (P : forall l, List.Forall (fun x => 0 <= x) l -> 0 <= list_sum l).
  { induction 1; simpl; [lra|]. unfold list_sum in *. simpl. lra. }
  induction 1 as [|x l Hx Hl IH]; intro S; [constructor|]. unfold list_sum in S. simpl in S. assert (Q := P l Hl). unfold list_sum in *.
  constructor; [lra|apply IH; lra].
Qed.
Lemma list_sum_nonneg : forall l, List.Forall (fun x => 0 <= x) l -> 0 <= list_sum l.
Proof. induction 1; unfold list_sum in *; simpl; lra. Qed.
Lemma count_app : forall a b, count_zeros (a ++ b) = (count_zeros a + count_zeros b)%nat.
Proof. intros. unfold count_zeros. rewrite filter_app, app_length. reflexivity. Qed.
Lemma count_le : forall l, (count_zeros l <= length l)%nat.
Proof. intro l. unfold count_zeros. induction l; simpl; [lia|]. destruct (is_zero a); simpl; lia. Qed.
Lemma count_none : forall l, existsb is_zero l = false -> count_zeros l = O.
Proof.
  intro l. unfold count_zeros. induction l; simpl; auto. intro H. apply orb_false_iff in H. destruct H as [H1 H2]. rewrite H1. auto.
Qed.
Lemma count_all : forall l, count_zeros l = length l -> List.Forall (fun x => x = 0) l.
Proof.
  induction l; intro H; [constructor|]. assert (L := count_le l). unfold count_zeros in *. simpl in H.
  unfold is_zero in H at 1. destruct (Req_EM_T a 0); simpl in H; [constructor; auto|].
  exfalso. unfold is_zero in *. lia.
Qed.
Lemma flags_nth : forall l i, (i < length l)%nat -> nth i (exp_flags l) 0 = if Rlt_dec 0 (nth i l 0) then 1 else 0.
Proof.
  intros l i H. unfold exp_flags.
  rewrite (nth_indep _ 0 ((fun x => if positive x then 1 else 0) 0)) by (rewrite map_length; auto).
  rewrite (map_nth (fun x => if positive x then 1 else 0)). unfold positive. destruct (Rlt_dec 0 (nth i l 0)); reflexivity.
Qed.
Lemma firstn_length' : forall A k (l : list A), (k <= length l)%nat -> length (firstn k l) = k.
Proof. intros. rewrite firstn_length. lia. Qed.
Lemma nth_firstn' : forall A k (l : list A) i d, (i < k)%nat -> nth i (firstn k l) d = nth i l d.
Proof.
  intros A k. induction k; intros l i d H; [lia|]. destruct l; [simpl; destruct i; reflexivity|]. simpl. destruct i; [reflexivity|]. apply IHk. lia.
Qed.
Lemma nth_skipn' : forall A k (l : list A) i d, nth i (skipn k l) d = nth (k + i) l d.
Proof. intros A k. induction k; intros l i d; [reflexivity|]. destruct l; [simpl; destruct i; reflexivity|]. simpl. apply IHk. Qed.
Lemma Forall_firstn : forall A (P : A -> Prop) k l, List.Forall P l -> List.Forall P (firstn k l).
Proof. intros A P k l H. rewrite <- (firstn_skipn k l) in H. apply List.Forall_app in H. apply H. Qed.
Lemma Forall_skipn : forall A (P : A -> Prop) k l, List.Forall P l -> List.Forall P (skipn k l).
Proof. intros A P k l H. rewrite <- (firstn_skipn k l) in H. apply List.Forall_app in H. apply H. Qed.

Section Split.
Variables (n t d l : list R) (li : list Z) (tau delta : R).
Hypotheses (Lt : length t = length n) (Ld : length d = length n) (Ll : length l = length n)
  (Hl : List.Forall (fun x => 0 <= x) l) (EI : l = map IZR li) (Hn : List.Forall natural_Z li)
  (Nd : List.Forall natural d) (Htau : 0 < tau) (Hdelta : 0 <= delta).

Lemma Lli : length li = length n. Proof. rewrite <- Ll, EI, map_length. reflexivity. Qed.
Lemma nth_li : forall i, nth i l 0 = IZR (nth i li 0%Z).
Proof. intro. rewrite EI. change 0 with (IZR 0) at 1. apply map_nth. Qed.

Lemma whole_ok : term_alphar (Power n t d (exp_flags l) li) tau delta = Some (Val (file_power n t d l tau delta)).
Proof.
  rewrite term_textbook; auto.
  - f_equal. f_equal. unfold textbook, file_power, power_sum. apply sumn_ext. intros i Hi.
    rewrite flags_nth by lia. rewrite <- nth_li. destruct (Rlt_dec 0 (nth i l 0)); f_equal; f_equal; ring.
  - simpl. unfold exp_flags. rewrite map_length. repeat split; auto. apply Lli.
Qed.
Lemma poly_ok : List.Forall (fun x => x = 0) l -> term_alphar (JustPower n t d) tau delta = Some (Val (file_power n t d l tau delta)).
Proof.
  intro Z. rewrite term_textbook; auto; [|simpl; auto].
  f_equal. f_equal. unfold textbook, file_power, power_sum. apply sumn_ext. intros i Hi.
  assert (E : nth i l 0 = 0) by (apply (Forall_nth' _ (fun x => x = 0)); [auto|lia]). rewrite E.
  destruct (Rlt_dec 0 0); [lra|reflexivity].
Qed.
Lemma split_ok : forall k ts contiguous, (k <= length n)%nat ->
  (contiguous = true -> List.Forall (fun x => x = 0) (firstn k l)) ->
  split_power n t d (exp_flags l) l li k (length l - k) contiguous = Some (Val ts) ->
  terms_alphar ts tau delta = Some (Val (file_power n t d l tau delta)).
Proof.
  intros k ts contiguous Hk Z E. unfold split_power in E.
  destruct (is_zero (list_sum l)) eqn:S0.
  { unfold ok in E. injection E as <-. cbn [terms_alphar]. rewrite poly_ok.
    - cbn [obind ok]. unfold ok. rewrite Rplus_0_r. reflexivity.
    - apply list_sum_zero; auto. unfold is_zero in S0. destruct (Req_EM_T _ _); [auto|discriminate]. }
  destruct (positive (list_sum l) && contiguous) eqn:C.
  - apply andb_true_iff in C. destruct C as [_ C]. specialize (Z C).
    assert (Lf : length (exp_flags l) = length n) by (unfold exp_flags; rewrite map_length; auto).
    assert (Li := Lli).
    unfold head, tail in E. rewrite Lt, Ld, Lf, Li, Ll in E.
    rewrite (proj2 (Nat.leb_le k (length n)) Hk) in E. rewrite (proj2 (Nat.leb_le (length n - k) (length n))) in E by lia.
    replace (length n - (length n - k))%nat with k in E by lia. cbn [ub obind ok] in E. unfold ok in E. cbn [obind] in E. injection E as <-.
    cbn [terms_alphar].
    rewrite term_textbook; auto; [|simpl; rewrite !firstn_length' by lia; repeat split; auto; apply Forall_firstn; auto].
    rewrite term_textbook; auto; [|simpl; rewrite !skipn_length; repeat split; try lia; apply Forall_skipn; auto].
    cbn [obind ok]. unfold ok. cbn [obind]. rewrite Rplus_0_r. f_equal. f_equal.
    unfold textbook, file_power, power_sum. rewrite skipn_length, firstn_length' by auto.
    replace (length n) with (k + (length n - k))%nat at 2 by lia. rewrite sumn_app. f_equal.
    + apply sumn_ext. intros i Hi. rewrite !nth_firstn' by auto.
      assert (E : nth i l 0 = 0). { rewrite <- (nth_firstn' _ k l i 0) by auto. apply (Forall_nth' _ (fun x => x = 0)); auto. rewrite firstn_length'; lia. }
      rewrite E. destruct (Rlt_dec 0 0); [lra|reflexivity].
    + apply sumn_ext. intros i Hi. rewrite !nth_skipn'. rewrite flags_nth by lia. rewrite <- nth_li.
      destruct (Rlt_dec 0 (nth (k + i) l 0)); f_equal; f_equal; ring.
  - unfold ok in E. injection E as <-. cbn [terms_alphar]. rewrite whole_ok. cbn [obind ok]. unfold ok. rewrite Rplus_0_r. reflexivity.
Qed.
End Split.
