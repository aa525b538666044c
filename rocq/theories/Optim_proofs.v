(** Proofs about the optimisation of parameters. *)
From Coq Require Import Reals ZArith String Ascii List Bool Lia Lra Permutation Decimal DecimalString DecimalNat DecimalFacts.
From Verif Require Import Json_model Cubic_model Float_model VLE_model Tracer_model Optim_model Optim_spec.
Import ListNotations.

(** ** Indices *)
Lemma digits_uint : forall d acc, digits acc (NilEmpty.string_of_uint d) = Some (Nat.of_uint_acc d acc).
Proof.
  induction d; intros acc; cbn [NilEmpty.string_of_uint digits Nat.of_uint_acc]; [reflexivity|..];
    match goal with |- context [digit ?c] => let n := eval compute in (digit c) in change (digit c) with n end; cbv iota; rewrite IHd; f_equal; f_equal; rewrite Nat.tail_mul_spec; lia.
Qed.
Lemma digit_inv : forall c k, digit c = Some k -> exists f : uint -> uint, (f = D0 /\ k = 0 \/ f = D1 /\ k = 1 \/ f = D2 /\ k = 2 \/ f = D3 /\ k = 3 \/ f = D4 /\ k = 4 \/ f = D5 /\ k = 5 \/ f = D6 /\ k = 6 \/ f = D7 /\ k = 7 \/ f = D8 /\ k = 8 \/ f = D9 /\ k = 9)%nat /\
  (forall d, NilEmpty.string_of_uint (f d) = String c (NilEmpty.string_of_uint d)).
Proof.
  intros [[] [] [] [] [] [] [] []] k H; vm_compute in H; try discriminate; injection H as <-;
    first [exists D0; split; [auto 20; fail|reflexivity] | exists D1; split; [auto 20; fail|reflexivity] | exists D2; split; [auto 20; fail|reflexivity] | exists D3; split; [auto 20; fail|reflexivity] | exists D4; split; [auto 20; fail|reflexivity] | exists D5; split; [auto 20; fail|reflexivity] | exists D6; split; [auto 20; fail|reflexivity] | exists D7; split; [auto 20; fail|reflexivity] | exists D8; split; [auto 20; fail|reflexivity] | exists D9; split; [auto 20; fail|reflexivity]].
Qed.
Lemma digits_inv : forall s acc n, digits acc s = Some n -> exists d, s = NilEmpty.string_of_uint d.
Proof.
  induction s as [|c s IH]; intros acc n H; [now exists Nil|]. cbn [digits] in H. destruct (digit c) as [k|] eqn:K; [|discriminate].
  destruct (digit_inv c k K) as (f & _ & F). apply IH in H. destruct H as (d & ->). exists (f d). now rewrite F.
Qed.
Lemma of_uint_acc0 : forall d, Nat.of_uint d = Nat.of_uint_acc d 0.
Proof. reflexivity. Qed.
Definition leading (d : uint) : Prop := match d with D0 Nil => True | Nil | D0 _ => False | _ => True end.
Lemma leading_unorm : forall d, leading d <-> unorm d = d.
Proof.
  intros d. destruct d; cbn [leading]; split; intros H; try reflexivity; try exact I; try contradiction; try discriminate H.
  - destruct d; try contradiction. reflexivity.
  - unfold unorm in H. cbn [nzhead] in H. destruct d; try exact I; exfalso.
    all: match type of H with (match ?t with _ => _ end) = _ => destruct t eqn:E end; try discriminate H; try (injection H as H; discriminate H); try (now apply nzhead_nonzero in E).
Qed.
Lemma leading_to : forall n, leading (Nat.to_uint n).
Proof. intros n. apply leading_unorm. rewrite <- DecimalNat.Unsigned.to_of. now rewrite DecimalNat.Unsigned.of_to. Qed.
Lemma index_string : forall d, leading d -> array_index (NilEmpty.string_of_uint d) = Some (Nat.of_uint d).
Proof.
  intros d H. pose proof (digits_uint d 0) as D. destruct d; try contradiction.
  1: { destruct d; try contradiction. reflexivity. }
  all: destruct d; [reflexivity|..]; cbn [NilEmpty.string_of_uint array_index] in *; cbn [Ascii.eqb Bool.eqb]; exact D.
Qed.
Lemma nil_zero : forall d, leading d -> NilZero.string_of_uint d = NilEmpty.string_of_uint d.
Proof. intros []; try contradiction; reflexivity. Qed.
Lemma array_index_iff : forall s n, array_index s = Some n <-> s = decimal n.
Proof.
  intros s n. split.
  - intros H. assert (K : exists d, leading d /\ s = NilEmpty.string_of_uint d).
    { unfold array_index in H. destruct s as [|c [|c' r]]; [discriminate| |].
      - destruct (digit_inv c n H) as (f & F & FS). exists (f Nil). rewrite FS. split; [|reflexivity].
        repeat destruct F as [[-> _]|F]; try exact I. destruct F as [-> _]. exact I.
      - destruct (Ascii.eqb_spec c "0") as [|N0]; [discriminate|]. assert (H2 := H). apply digits_inv in H. destruct H as (d & E). exists d. split; [|exact E].
        destruct d; try exact I; [discriminate E|]. cbn [NilEmpty.string_of_uint] in E. injection E as E _. contradiction. }
    destruct K as (d & LD & ->). rewrite index_string in H by exact LD. injection H as <-. unfold decimal. rewrite DecimalNat.Unsigned.to_of. rewrite (proj1 (leading_unorm d) LD). now rewrite nil_zero.
  - intros ->. unfold decimal. rewrite nil_zero by apply leading_to. rewrite index_string by apply leading_to. now rewrite DecimalNat.Unsigned.of_to.
Qed.

(** ** Places *)
Fixpoint resolve (p : list string) (j : json) : option json :=
  match p with
  | [] => Some j
  | t :: p =>
    match j with
    | JObj l => match lookup t l with Some c => resolve p c | None => None end
    | JArr l => match array_index t with Some i => match nth_error l i with Some c => resolve p c | None => None end | None => None end
    | _ => None
    end
  end.
Lemma resolve_iff : forall p j v, resolve p j = Some v <-> at_path p j v.
Proof.
  induction p as [|t p IH]; intros j v; cbn [resolve].
  - split; [intros H; injection H as <-; constructor|]. intros H. inversion H; subst; reflexivity.
  - destruct j; try (split; [discriminate|intros H; inversion H]).
    + destruct (array_index t) as [i|] eqn:A.
      * apply array_index_iff in A. subst t. destruct (nth_error l i) as [c|] eqn:N.
        -- rewrite IH. split; [intros H; econstructor; eassumption|]. intros H. inversion H as [| |i' ? ? c' ? N' H' E1]; subst. assert (i' = i).
           { assert (Q : array_index (decimal i) = Some i') by (apply array_index_iff; auto). rewrite (proj2 (array_index_iff (decimal i) i) eq_refl) in Q. congruence. } subst. congruence.
        -- split; [discriminate|]. intros H. inversion H as [| |i' ? ? c' ? N' H' E1]; subst. assert (i' = i).
           { assert (Q : array_index (decimal i) = Some i') by (apply array_index_iff; auto). rewrite (proj2 (array_index_iff (decimal i) i) eq_refl) in Q. congruence. } subst. congruence.
      * split; [discriminate|]. intros H. inversion H as [| |i' ? ? c' ? N' H' E1]; subst. rewrite (proj2 (array_index_iff (decimal i') i') eq_refl) in A. discriminate.
    + destruct (lookup t l) as [c|] eqn:N.
      * rewrite IH. split; [intros H; econstructor; eassumption|]. intros H. inversion H; subst. congruence.
      * split; [discriminate|]. intros H. inversion H; subst. congruence.
Qed.
Lemma lookup_update : forall k k' v l, lookup k (update k' v l) = if String.eqb k k' then match lookup k l with Some _ => Some v | None => None end else lookup k l.
Proof.
  induction l as [|[a b] l IH]; cbn [update lookup]; [now destruct (String.eqb k k')|]. destruct (String.eqb_spec k' a) as [->|N]; cbn [lookup].
  - destruct (String.eqb_spec k a); reflexivity.
  - rewrite IH. destruct (String.eqb_spec k k') as [->|]; [|destruct (String.eqb k a); reflexivity]. destruct (String.eqb_spec k' a); [contradiction|reflexivity].
Qed.
Lemma update_keys : forall k v l, map fst (update k v l) = map fst l.
Proof. induction l as [|[a b] l IH]; cbn [update map]; [reflexivity|]. destruct (String.eqb k a); cbn [map fst]; congruence. Qed.
Lemma nth_replace : forall v l i k, nth_error (replace_nth i v l) k = if Nat.eqb k i then match nth_error l k with Some _ => Some v | None => None end else nth_error l k.
Proof.
  induction l as [|a l IH]; intros [|i] [|k]; cbn [replace_nth nth_error Nat.eqb]; try reflexivity.
  - now destruct (Nat.eqb k i).
  - apply IH.
Qed.
Lemma replace_length : forall v l i, length (replace_nth i v l) = length l.
Proof. induction l as [|a l IH]; intros [|i]; cbn [replace_nth length]; auto. Qed.

Lemma set_at_iff : forall p v j, (exists j', set_at p v j = Val j') <-> resolve p j <> None.
Proof.
  induction p as [|t p IH]; intros v j; cbn [set_at resolve].
  - split; [discriminate|eauto].
  - destruct j; try (split; [intros [? H]; discriminate|congruence]).
    + destruct (array_index t) as [i|]; [|split; [intros [? H]; discriminate|congruence]]. destruct (nth_error l i) as [c|]; [|split; [intros [? H]; discriminate|congruence]].
      rewrite <- (IH v). destruct (set_at p v c) as [c'|e]; cbn [bind]; split; intros [j' H]; eauto; discriminate.
    + destruct (lookup t l) as [c|]; [|split; [intros [? H]; discriminate|congruence]].
      rewrite <- (IH v). destruct (set_at p v c) as [c'|e]; cbn [bind]; split; intros [j' H]; eauto; discriminate.
Qed.
Lemma set_at_error : forall p v j e, set_at p v j = Err e -> e = JsonError.
Proof.
  induction p as [|t p IH]; intros v j e H; cbn [set_at] in H; [discriminate|]. destruct j; try congruence.
  - destruct (array_index t) as [i|]; [|congruence]. destruct (nth_error l i) as [c|]; [|congruence]. destruct (set_at p v c) as [c'|e'] eqn:E; [discriminate|]. cbn [bind] in H. injection H as <-. eauto.
  - destruct (lookup t l) as [c|]; [|congruence]. destruct (set_at p v c) as [c'|e'] eqn:E; [discriminate|]. cbn [bind] in H. injection H as <-. eauto.
Qed.
Lemma resolve_app : forall p r j, resolve (p ++ r) j = match resolve p j with Some c => resolve r c | None => None end.
Proof.
  induction p as [|t p IH]; intros r j; cbn [List.app resolve]; [reflexivity|]. destruct j; try reflexivity.
  - destruct (array_index t) as [i|]; [|reflexivity]. destruct (nth_error l i); [apply IH|reflexivity].
  - destruct (lookup t l); [apply IH|reflexivity].
Qed.
Lemma set_at_here : forall p v j j', set_at p v j = Val j' -> resolve p j' = Some v.
Proof.
  induction p as [|t p IH]; intros v j j' H; cbn [set_at] in H; [injection H as <-; reflexivity|]. destruct j; try discriminate.
  - destruct (array_index t) as [i|] eqn:A; [|discriminate]. destruct (nth_error l i) as [c|] eqn:N; [|discriminate]. destruct (set_at p v c) as [c'|e'] eqn:E; [|discriminate]. cbn [bind] in H. injection H as <-.
    cbn [resolve]. rewrite A, nth_replace, Nat.eqb_refl, N. eauto.
  - destruct (lookup t l) as [c|] eqn:N; [|discriminate]. destruct (set_at p v c) as [c'|e'] eqn:E; [|discriminate]. cbn [bind] in H. injection H as <-.
    cbn [resolve]. rewrite lookup_update, String.eqb_refl, N. eauto.
Qed.
Lemma apart_cons : forall t p q, apart (t :: p) (t :: q) <-> apart p q.
Proof.
  intros t p q. unfold apart, prefix. split; intros [A B]; split; intros (r & H).
  - apply A. exists r. cbn [List.app]. congruence.
  - apply B. exists r. cbn [List.app]. congruence.
  - apply A. exists r. cbn [List.app] in H. congruence.
  - apply B. exists r. cbn [List.app] in H. congruence.
Qed.
Lemma index_inj : forall t u i, array_index t = Some i -> array_index u = Some i -> t = u.
Proof. intros t u i A B. apply array_index_iff in A, B. congruence. Qed.
Lemma set_at_apart : forall p q v j j', set_at p v j = Val j' -> apart p q -> resolve q j' = resolve q j.
Proof.
  induction p as [|t p IH]; intros q v j j' H AP; [exfalso; apply (proj1 AP); now exists q|]. destruct q as [|u q]; [exfalso; apply (proj2 AP); now exists (t :: p)|]. cbn [set_at] in H. destruct j; try discriminate.
  - destruct (array_index t) as [i|] eqn:A; [|discriminate]. destruct (nth_error l i) as [c|] eqn:N; [|discriminate]. destruct (set_at p v c) as [c'|e'] eqn:E; [|discriminate]. cbn [bind] in H. injection H as <-.
    cbn [resolve]. destruct (array_index u) as [k|] eqn:B; [|reflexivity]. rewrite nth_replace. destruct (Nat.eqb_spec k i) as [->|]; [|reflexivity]. rewrite N.
    assert (t = u) by (eapply index_inj; eassumption). subst u. apply (IH q v c c' E). now apply apart_cons in AP.
  - destruct (lookup t l) as [c|] eqn:N; [|discriminate]. destruct (set_at p v c) as [c'|e'] eqn:E; [|discriminate]. cbn [bind] in H. injection H as <-.
    cbn [resolve]. rewrite lookup_update. destruct (String.eqb_spec u t) as [->|]; [|reflexivity]. rewrite N. apply (IH q v c c' E). now apply apart_cons in AP.
Qed.
Lemma shape_refl : forall a, same_shape a a.
Proof. intros []; reflexivity. Qed.
Lemma shape_trans : forall a b c, same_shape a b -> same_shape b c -> same_shape a c.
Proof. intros [] [] []; cbn [same_shape]; try congruence. Qed.
(** above the place that is written *)
Lemma set_at_above : forall q r v j j', set_at (q ++ r) v j = Val j' -> r <> [] -> exists a b, resolve q j = Some a /\ resolve q j' = Some b /\ same_shape a b.
Proof.
  induction q as [|t q IH]; intros r v j j' H NR; cbn [List.app] in H.
  - exists j, j'. split; [reflexivity|]. split; [reflexivity|]. destruct r as [|t r]; [contradiction|]. cbn [set_at] in H. destruct j; try discriminate.
    + destruct (array_index t) as [i|]; [|discriminate]. destruct (nth_error l i) as [c|]; [|discriminate]. destruct (set_at r v c); [|discriminate]. injection H as <-. cbn [same_shape]. now rewrite replace_length.
    + destruct (lookup t l) as [c|]; [|discriminate]. destruct (set_at r v c); [|discriminate]. injection H as <-. cbn [same_shape]. now rewrite update_keys.
  - cbn [set_at] in H. destruct j; try discriminate.
    + destruct (array_index t) as [i|] eqn:A; [|discriminate]. destruct (nth_error l i) as [c|] eqn:N; [|discriminate]. destruct (set_at (q ++ r) v c) as [c'|e'] eqn:E; [|discriminate]. cbn [bind] in H. injection H as <-.
      cbn [resolve]. rewrite A, nth_replace, Nat.eqb_refl, N. eauto.
    + destruct (lookup t l) as [c|] eqn:N; [|discriminate]. destruct (set_at (q ++ r) v c) as [c'|e'] eqn:E; [|discriminate]. cbn [bind] in H. injection H as <-.
      cbn [resolve]. rewrite lookup_update, String.eqb_refl, N. eauto.
Qed.
Lemma cases : forall p q : list string, prefix p q \/ (exists r, r <> [] /\ p = q ++ r) \/ apart p q.
Proof.
  induction p as [|t p IH]; intros q; [left; now exists q|]. destruct q as [|u q]; [right; left; exists (t :: p); split; [discriminate|reflexivity]|].
  destruct (string_dec t u) as [->|N].
  - destruct (IH q) as [(r & ->)|[(r & NR & ->)|AP]]; [left; now exists r|right; left; exists r; auto|right; right; now apply apart_cons].
  - right. right. split; intros (r & H); cbn [List.app] in H; congruence.
Qed.

(** ** All writes *)
Definition writes (x : list R) (pps : list (list (list string))) : list (list string * json) := flat_map (fun '(a, ps) => map (fun p => (p, JNum a)) ps) (combine x pps).
Fixpoint run_writes (w : list (list string * json)) (j : json) : res json := match w with [] => Val j | (p, v) :: w => bind (set_at p v j) (run_writes w) end.
Lemma run_app : forall u w j, run_writes (u ++ w) j = bind (run_writes u j) (run_writes w).
Proof. induction u as [|[p v] u IH]; intros w j; cbn [List.app run_writes bind]; [reflexivity|]. destruct (set_at p v j); cbn [bind]; auto. Qed.
Lemma write_all_run : forall ps v j, write_all ps v j = run_writes (map (fun p => (p, v)) ps) j.
Proof. induction ps as [|p ps IH]; intros v j; cbn [write_all map run_writes]; [reflexivity|]. destruct (set_at p v j); cbn [bind]; auto. Qed.
Lemma write_params_run : forall x pps j, write_params x pps j = run_writes (writes x pps) j.
Proof.
  unfold writes. induction x as [|a x IH]; intros [|ps pps] j; try reflexivity. cbn [write_params combine flat_map]. rewrite run_app, write_all_run. destruct (run_writes _ j); cbn [bind]; auto.
Qed.
Lemma in_writes : forall x pps p v, In (p, v) (writes x pps) <-> exists k a ps, nth_error x k = Some a /\ nth_error pps k = Some ps /\ In p ps /\ v = JNum a.
Proof.
  unfold writes. induction x as [|a x IH]; intros [|ps pps] p v; cbn [combine flat_map].
  1-3: split; [intros []|]; intros ([|k] & b & qs & H1 & H2 & _); cbn [nth_error] in *; discriminate.
  rewrite in_app_iff, in_map_iff, IH. split.
  - intros [(q & H & I)|(k & b & qs & H1 & H2 & H3 & H4)].
    + injection H as <- <-. exists 0%nat, a, ps. auto.
    + exists (S k), b, qs. auto.
  - intros ([|k] & b & qs & H1 & H2 & H3 & H4); cbn [nth_error] in *.
    + injection H1 as <-. injection H2 as <-. left. exists p. subst v. auto.
    + right. exists k, b, qs. auto.
Qed.
Lemma kept : forall w j j' p a, run_writes w j = Val j' -> resolve p j = Some (JNum a) -> (forall q v, In (q, v) w -> prefix q p -> q = p /\ v = JNum a) -> resolve p j' = Some (JNum a).
Proof.
  induction w as [|[q v] w IH]; intros j j' p a H R C; cbn [run_writes] in H; [congruence|]. destruct (set_at q v j) as [j1|e] eqn:E; [|discriminate]. cbn [bind] in H.
  apply (IH j1 j' p a H); [|intros; apply C; auto; now right]. destruct (cases q p) as [PR|[(r & NR & ->)|AP]].
  - destruct (C q v (or_introl eq_refl) PR) as [-> ->]. eapply set_at_here, E.
  - exfalso. assert (K : resolve (p ++ r) j <> None) by (apply (set_at_iff _ v); eauto). rewrite resolve_app, R in K. destruct r; [contradiction|]. now apply K.
  - rewrite (set_at_apart q p v j j1 E AP). exact R.
Qed.
Lemma written : forall w j j' p a, run_writes w j = Val j' -> In (p, JNum a) w -> (forall q v, In (q, v) w -> prefix q p -> q = p /\ v = JNum a) -> resolve p j' = Some (JNum a).
Proof.
  induction w as [|[q v] w IH]; intros j j' p a H I C; [destruct I|]. cbn [run_writes] in H. destruct (set_at q v j) as [j1|e] eqn:E; [|discriminate]. cbn [bind] in H.
  destruct I as [I|I].
  - injection I as -> ->. eapply kept; [exact H|eapply set_at_here, E|]. intros; apply C; auto. now right.
  - eapply IH; [exact H|exact I|]. intros; apply C; auto. now right.
Qed.
Lemma untouched : forall w j j' q, run_writes w j = Val j' -> (forall p v, In (p, v) w -> apart p q) -> resolve q j' = resolve q j.
Proof.
  induction w as [|[p v] w IH]; intros j j' q H C; cbn [run_writes] in H; [congruence|]. destruct (set_at p v j) as [j1|e] eqn:E; [|discriminate]. cbn [bind] in H.
  rewrite (IH j1 j' q H) by (intros; eapply C; right; eassumption). eapply set_at_apart; [exact E|]. eapply C. now left.
Qed.
Lemma above : forall w j j' q a, run_writes w j = Val j' -> resolve q j = Some a -> (forall p v, In (p, v) w -> ~ prefix p q) -> exists b, resolve q j' = Some b /\ same_shape a b.
Proof.
  induction w as [|[p v] w IH]; intros j j' q a H R C; cbn [run_writes] in H; [exists a; split; [congruence|apply shape_refl]|]. destruct (set_at p v j) as [j1|e] eqn:E; [|discriminate]. cbn [bind] in H.
  assert (K : exists b, resolve q j1 = Some b /\ same_shape a b).
  { destruct (cases p q) as [PR|[(r & NR & ->)|AP]]; [exfalso; eapply C; [now left|exact PR]| |exists a; split; [now rewrite (set_at_apart p q v j j1 E AP)|apply shape_refl]].
    destruct (set_at_above q r v j j1 E NR) as (a' & b & R1 & R2 & S). exists b. split; [exact R2|]. congruence. }
  destruct K as (b & R1 & S1). destruct (IH j1 j' q b H R1) as (b' & R2 & S2); [intros; eapply C; right; eassumption|]. exists b'. split; [exact R2|]. eapply shape_trans; eassumption.
Qed.
(** a write makes no place that was not there *)
Lemma no_new : forall p v j j' q, set_at p v j = Val j' -> (exists a, v = JNum a) -> resolve q j = None -> resolve q j' = None.
Proof.
  intros p v j j' q E (a & ->) N. destruct (cases p q) as [(r & ->)|[(r & NR & ->)|AP]].
  - rewrite resolve_app, (set_at_here _ _ _ _ E). rewrite resolve_app in N. assert (K : resolve p j <> None) by (apply (set_at_iff _ (JNum a)); eauto). destruct r; [|reflexivity].
    destruct (resolve p j); [discriminate|contradiction].
  - destruct (set_at_above q r _ j j' E NR) as (? & ? & R1 & _). congruence.
  - now rewrite (set_at_apart p q _ j j' E AP).
Qed.
Lemma numbers : forall x pps p v, In (p, v) (writes x pps) -> exists a, v = JNum a.
Proof. intros x pps p v H. apply in_writes in H. destruct H as (k & a & ps & _ & _ & _ & ->). eauto. Qed.
Lemma all_there : forall w j j', run_writes w j = Val j' -> (forall p v, In (p, v) w -> exists a, v = JNum a) -> forall p v, In (p, v) w -> resolve p j <> None.
Proof.
  induction w as [|[q u] w IH]; intros j j' H NU p v I; [destruct I|]. cbn [run_writes] in H. destruct (set_at q u j) as [j1|e] eqn:E; [|discriminate]. cbn [bind] in H. destruct I as [I|I].
  - injection I as -> ->. apply (set_at_iff _ v). eauto.
  - intros N. assert (K : resolve p j1 <> None) by (eapply (IH j1 j' H); [intros; eapply NU; right; eassumption|exact I]). apply K. eapply no_new; [exact E|eapply NU; now left|exact N].
Qed.
(** all writes succeed if their places are there and none is above another *)
Lemma succeed : forall w j, (forall p v, In (p, v) w -> resolve p j <> None) -> (forall p v q u, In (p, v) w -> In (q, u) w -> prefix p q -> p = q) -> exists j', run_writes w j = Val j'.
Proof.
  induction w as [|[p v] w IH]; intros j T C; cbn [run_writes]; [eauto|]. destruct (proj2 (set_at_iff p v j)) as (j1 & E); [eapply T; now left|]. rewrite E. cbn [bind]. apply IH.
  - intros q u I. destruct (cases p q) as [PR|[(r & NR & PQ)|AP]].
    + rewrite <- (C p v q u (or_introl eq_refl) (or_intror I) PR). rewrite (set_at_here _ _ _ _ E). discriminate.
    + exfalso. apply NR. assert (q = p) by (eapply C; [right; exact I|now left|now exists r]). subst q. rewrite <- (List.app_nil_r p) in PQ at 1. now apply app_inv_head in PQ.
    + rewrite (set_at_apart p q v j j1 E AP). eapply T. right. exact I.
  - intros. eapply C; [right|right|]; eassumption.
Qed.
Lemma run_error : forall w j e, run_writes w j = Err e -> e = JsonError.
Proof.
  induction w as [|[p v] w IH]; intros j e H; cbn [run_writes] in H; [discriminate|]. destruct (set_at p v j) as [j1|e1] eqn:E; cbn [bind] in H; [eauto|]. injection H as <-. eapply set_at_error, E.
Qed.
