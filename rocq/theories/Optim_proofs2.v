(** Proofs about the pool of threads and about pointers as text. *)
From Coq Require Import Reals ZArith String Ascii List Bool Lia Lra Permutation.
From Verif Require Import Json_model Cubic_model Float_model VLE_model Tracer_model Optim_model Optim_spec.
Import ListNotations.

Lemma set_nth_split : forall (A : Type) (l : list A) t a b, nth_error l t = Some a -> exists l1 l2, l = l1 ++ a :: l2 /\ length l1 = t /\ set_nth t b l = l1 ++ b :: l2.
Proof.
  intros A l t a b H. apply nth_error_split in H. destruct H as (l1 & l2 & -> & L). exists l1, l2. split; [reflexivity|]. split; [exact L|]. unfold set_nth. subst t.
  rewrite firstn_app, firstn_all, Nat.sub_diag, skipn_app, skipn_all, Nat.sub_diag. cbn [firstn skipn app]. now rewrite app_nil_r.
Qed.
Lemma set_nth_length : forall (A : Type) (l : list A) t b, length (set_nth t b l) = length l.
Proof.
  intros A l t b. destruct (nth_error l t) as [a|] eqn:E.
  - destruct (set_nth_split A l t a b E) as (l1 & l2 & -> & _ & ->). rewrite !app_length. reflexivity.
  - apply nth_error_None in E. unfold set_nth. rewrite firstn_all2, skipn_all2 by lia. now rewrite app_nil_r.
Qed.
Lemma nth_set_nth : forall (A : Type) (l : list A) t b k, (t < length l)%nat -> nth_error (set_nth t b l) k = if Nat.eqb k t then Some b else nth_error l k.
Proof.
  intros A l t b k H. destruct (nth_error l t) as [a|] eqn:E; [|apply nth_error_None in E; lia]. destruct (set_nth_split A l t a b E) as (l1 & l2 & -> & L & ->).
  destruct (Nat.eqb_spec k t) as [->|N]; [rewrite nth_error_app2 by lia; now rewrite L, Nat.sub_diag|].
  destruct (Nat.ltb_spec k t) as [K|K]; [now rewrite !nth_error_app1 by lia|]. rewrite !nth_error_app2 by lia. destruct (k - length l1)%nat eqn:D; [lia|reflexivity].
Qed.

Section Pool.
Variable m : eosf.
Variable cs : list contribution.
Variable N : nat.
Notation step := (step m cs).
Notation steps := (steps m cs).
Definition task (t : thread) : list nat := match t with Idle => [] | Evaluating i | Looking i => [i] end.
Definition active (ts : list thread) : list nat := flat_map task ts.
Lemma active_app : forall a b, active (a ++ b) = active a ++ active b.
Proof. intros a b. unfold active. apply flat_map_app. Qed.
Lemma in_active : forall ts i, In i (active ts) <-> In (Evaluating i) ts \/ In (Looking i) ts.
Proof.
  induction ts as [|t ts IH]; intros i; cbn [active flat_map]; [split; [intros []|intros [[]|[]]]|]. rewrite in_app_iff. fold (active ts). rewrite IH. cbn [In].
  destruct t as [|k|k]; cbn [task In]; split; intros H.
  - tauto.
  - destruct H as [[H|H]|[H|H]]; try discriminate; tauto.
  - destruct H as [[<-|[]]|H]; tauto.
  - destruct H as [[H|H]|[H|H]]; try discriminate; [injection H as <-|..]; tauto.
  - destruct H as [[<-|[]]|H]; tauto.
  - destruct H as [[H|H]|[H|H]]; try discriminate; [|injection H as <-|]; tauto.
Qed.
Record good (s : pool) : Prop := {
  g_threads : length (threads s) = N;
  g_buffer : length (buffer s) = length cs;
  g_posted : (posted s <= length cs)%nat;
  g_nodup : NoDup (queue s ++ active (threads s));
  g_bound : forall i, In i (queue s ++ active (threads s)) -> (i < posted s)%nat;
  g_looking : forall i, In (Looking i) (threads s) -> exists c v, nth_error cs i = Some c /\ calculate m c = Val v /\ nth_error (buffer s) i = Some v;
  g_done : forall i, (i < posted s)%nat -> ~ In i (queue s ++ active (threads s)) -> exists c v, nth_error cs i = Some c /\ calculate m c = Val v /\ nth_error (buffer s) i = Some (clamp v) }.
Lemma active_repeat : forall n, active (repeat Idle n) = [].
Proof. induction n; cbn; auto. Qed.
Lemma good_start : good (start cs N).
Proof.
  constructor; cbn [start posted queue threads buffer app].
  - apply repeat_length.
  - apply repeat_length.
  - lia.
  - rewrite active_repeat. constructor.
  - rewrite active_repeat. intros i [].
  - intros i H. apply repeat_spec in H. discriminate.
  - intros i H. lia.
Qed.
Lemma good_step : forall s s', good s -> step (Running s) (Running s') -> good s'.
Proof.
  intros s s' G H. inversion H as [q ts b k K E1 E2|k i q ts b t T E1 E2|k q ts b t i c v T C V E1 E2| |k q ts b t i v T B E1 E2]; subst s s'; destruct G as [G1 G2 G3 G4 G5 G6 G7]; cbn [posted queue threads buffer] in *.
  - constructor; cbn [posted queue threads buffer]; auto.
    + rewrite <- app_assoc. cbn [app]. apply NoDup_Add with (a := k) (l := q ++ active ts); [apply Add_app|]. split; [exact G4|]. intros I. apply G5 in I. lia.
    + intros i I. rewrite <- app_assoc, in_app_iff in I. cbn [app In] in I. destruct I as [I|[<-|I]]; [|lia|]; (assert ((i < k)%nat) by (apply G5; apply in_app_iff; auto); lia).
    + intros i I NI. assert (i <> k) by (intros ->; apply NI; rewrite !in_app_iff; cbn [In]; auto). apply G7; [lia|]. intros I2. apply NI. rewrite !in_app_iff in *. tauto.
  - destruct (set_nth_split _ ts t Idle (Evaluating i) T) as (l1 & l2 & -> & _ & ->). rewrite active_app in *. cbn [active flat_map task app] in *. fold (active l2) in *.
    constructor; cbn [posted queue threads buffer]; rewrite ?active_app; cbn [active flat_map task app]; fold (active l2); auto.
    + rewrite <- G1, !app_length. reflexivity.
    + eapply Permutation_NoDup; [|exact G4]. rewrite app_assoc. rewrite (app_assoc q). apply Permutation_cons_app. reflexivity.
    + intros j I. apply G5. rewrite !in_app_iff in *. cbn [In] in *. rewrite !in_app_iff. tauto.
    + intros j I. apply G6. rewrite in_app_iff in *. cbn [In] in *. destruct I as [I|[I|I]]; [auto|discriminate|auto].
    + intros j I NI. apply G7; [exact I|]. intros I2. apply NI. cbn [In] in I2. rewrite !in_app_iff in *. cbn [In]. tauto.
  - assert (IB : (i < length b)%nat) by (rewrite G2; apply nth_error_Some; congruence).
    destruct (set_nth_split _ ts t (Evaluating i) (Looking i) T) as (l1 & l2 & -> & _ & ->). rewrite active_app in *. cbn [active flat_map task app] in *. fold (active l2) in *.
    constructor; cbn [posted queue threads buffer]; rewrite ?active_app; cbn [active flat_map task app]; fold (active l2); auto.
    + rewrite <- G1, !app_length. reflexivity.
    + now rewrite set_nth_length.
    + intros j I. rewrite nth_set_nth by exact IB. destruct (Nat.eqb_spec j i) as [->|NE]; [eauto|]. apply G6. rewrite in_app_iff in *. cbn [In] in *. destruct I as [I|[I|I]]; [auto|congruence|auto].
    + intros j I NI. rewrite nth_set_nth by exact IB. destruct (Nat.eqb_spec j i) as [->|NE]; [|now apply G7]. exfalso. apply NI. rewrite !in_app_iff. cbn [In]. auto.
  - assert (IB : (i < length b)%nat) by (apply nth_error_Some; congruence).
    destruct (set_nth_split _ ts t (Looking i) Idle T) as (l1 & l2 & -> & _ & ->). rewrite active_app in *. cbn [active flat_map task app] in *. fold (active l2) in *.
    constructor; cbn [posted queue threads buffer]; rewrite ?active_app; cbn [active flat_map task app]; fold (active l2); auto.
    + rewrite <- G1, !app_length. reflexivity.
    + now rewrite set_nth_length.
    + rewrite app_assoc in G4. apply NoDup_remove_1 in G4. now rewrite <- app_assoc in G4.
    + intros j I. apply G5. rewrite !in_app_iff in *. cbn [In]. tauto.
    + intros j I. rewrite nth_set_nth by exact IB. assert (NE : j <> i).
      { intros ->. rewrite app_assoc in G4. apply NoDup_remove_2 in G4. apply G4. rewrite in_app_iff in I. cbn [In] in I. rewrite !in_app_iff.
        destruct I as [I|[I|I]]; [|discriminate|]; assert (J : In i (active l1) \/ In i (active l2)) by (rewrite !in_active; auto); tauto. }
      destruct (Nat.eqb_spec j i) as [|_]; [contradiction|]. apply G6. rewrite in_app_iff in *. cbn [In] in *. destruct I as [I|[I|I]]; [auto|discriminate|auto].
    + intros j I NI. rewrite nth_set_nth by exact IB. destruct (Nat.eqb_spec j i) as [->|NE].
      * destruct (G6 i) as (c & v' & C & V & B'); [apply in_app_iff; right; now left|]. exists c, v'. split; [exact C|]. split; [exact V|]. congruence.
      * apply G7; [exact I|]. intros I2. apply NI. rewrite !in_app_iff in *. cbn [In] in I2. destruct I2 as [I2|[I2|[I2|I2]]]; auto. congruence.
Qed.
Lemma terminated_stays : forall n a, steps Terminated n a -> a = Terminated.
Proof. intros n a H. inversion H as [|? ? ? ? S]; subst; [reflexivity|inversion S]. Qed.
Lemma good_steps : forall n a s', steps a n (Running s') -> forall s, a = Running s -> good s -> good s'.
Proof.
  intros n a s' H. remember (Running s') as b eqn:EB. induction H as [z|a a1 b n S H IH]; intros s EA G.
  - congruence.
  - subst. destruct a1 as [s1|].
    + eapply IH; [reflexivity|reflexivity|]. eapply good_step; eassumption.
    + apply terminated_stays in H. discriminate.
Qed.
(** ** The number of steps *)
Definition weight (t : thread) : nat := match t with Idle => 0 | Looking _ => 1 | Evaluating _ => 2 end.
Definition tweight (ts : list thread) : nat := fold_right (fun t n => weight t + n)%nat 0%nat ts.
Definition remaining (s : pool) : nat := (4 * (length cs - posted s) + 3 * length (queue s) + tweight (threads s))%nat.
Lemma tweight_app : forall a b, tweight (a ++ b) = (tweight a + tweight b)%nat.
Proof. induction a as [|t a IH]; intros b; cbn [tweight fold_right app]; [reflexivity|]. fold (tweight (a ++ b)) (tweight a). rewrite IH. lia. Qed.
Lemma remaining_step : forall s s', step (Running s) (Running s') -> S (remaining s') = remaining s.
Proof.
  intros s s' H. inversion H as [q ts b k K E1 E2|k i q ts b t T E1 E2|k q ts b t i c v T C V E1 E2| |k q ts b t i v T B E1 E2]; subst s s'; unfold remaining; cbn [posted queue threads buffer].
  - rewrite app_length. cbn [length]. lia.
  - destruct (set_nth_split _ ts t Idle (Evaluating i) T) as (l1 & l2 & -> & _ & ->). rewrite !tweight_app. cbn [tweight fold_right weight length]. lia.
  - destruct (set_nth_split _ ts t (Evaluating i) (Looking i) T) as (l1 & l2 & -> & _ & ->). rewrite !tweight_app. cbn [tweight fold_right weight length]. lia.
  - destruct (set_nth_split _ ts t (Looking i) Idle T) as (l1 & l2 & -> & _ & ->). rewrite !tweight_app. cbn [tweight fold_right weight length]. lia.
Qed.
Lemma remaining_steps : forall n a s', steps a n (Running s') -> forall s, a = Running s -> (n + remaining s' = remaining s)%nat.
Proof.
  intros n a s' H. remember (Running s') as b eqn:EB. induction H as [z|a a1 b n S H IH]; intros s EA.
  - assert (s = s') by congruence. now subst.
  - subst. destruct a1 as [s1|]; [|apply terminated_stays in H; discriminate]. specialize (IH eq_refl s1 eq_refl). apply remaining_step in S. lia.
Qed.
Lemma steps_bound : forall n a b, steps a n b -> forall s, a = Running s -> (n <= S (remaining s))%nat.
Proof.
  intros n a b H. induction H as [z|a a1 b n S H IH]; intros s EA; [lia|]. subst. destruct a1 as [s1|].
  - specialize (IH s1 eq_refl). apply remaining_step in S. lia.
  - inversion H as [|? ? ? ? S']; subst; [lia|inversion S'].
Qed.
Lemma remaining_start : remaining (start cs N) = (4 * length cs)%nat.
Proof. unfold remaining. cbn [start posted queue threads length]. replace (tweight (repeat Idle N)) with 0%nat; [lia|]. induction N; cbn; auto. Qed.
(** ** Progress *)
Lemma progress : forall s, (0 < N)%nat -> good s -> joined cs s \/ exists b, step (Running s) b.
Proof.
  intros [k q ts b] HN [G1 G2 G3 G4 G5 G6 G7]. cbn [posted queue threads buffer] in *. destruct (Nat.ltb_spec k (length cs)) as [K|K]; [right; eexists; now apply s_post|].
  destruct (Exists_dec (fun t => t <> Idle) ts) as [E|NE]; [intros []; [right; tauto|left; discriminate|left; discriminate]| |].
  - right. apply Exists_exists in E. destruct E as (t & I & NI). apply In_nth_error in I. destruct I as (ti & T). destruct t as [|i|i]; [contradiction| |].
    + assert (IA : (i < k)%nat) by (apply G5, in_app_iff; right; apply in_active; left; eapply nth_error_In, T).
      destruct (nth_error cs i) as [c|] eqn:C; [|apply nth_error_None in C; lia]. destruct (calculate m c) as [v|e] eqn:V; eexists; [eapply s_write|eapply s_throw]; eassumption.
    + destruct (G6 i) as (c & v & _ & _ & B); [eapply nth_error_In, T|]. eexists. eapply s_look; eassumption.
  - assert (ID : forall t, In t ts -> t = Idle).
    { intros t I. destruct t; [reflexivity|exfalso|exfalso]; apply NE, Exists_exists; eexists; (split; [exact I|discriminate]). }
    destruct q as [|i q].
    + left. split; [cbn; lia|]. split; [exact ID|]. now left.
    + right. destruct ts as [|t ts]; [cbn [length] in G1; lia|]. eexists. apply (s_take m cs k i q (t :: ts) b 0%nat). rewrite (ID t) by now left. reflexivity.
Qed.
Lemma joined_buffer : forall s, (0 < N)%nat -> good s -> joined cs s -> forall i c, nth_error cs i = Some c -> exists v, calculate m c = Val v /\ nth_error (buffer s) i = Some (clamp v).
Proof.
  intros s HN [G1 G2 G3 G4 G5 G6 G7] (J1 & J2 & J3) i c C. assert (Q : queue s = []) by (destruct J3 as [|T]; [assumption|rewrite T in G1; cbn [length] in G1; lia]).
  assert (A : active (threads s) = []).
  { clear - J2. induction (threads s) as [|t ts IH]; [reflexivity|]. rewrite (J2 t) by now left. cbn. apply IH. intros; apply J2. now right. }
  destruct (G7 i) as (c' & v & C' & V & B).
  - rewrite J1. apply nth_error_Some. congruence.
  - rewrite Q, A. intros [].
  - exists v. split; [congruence|exact B].
Qed.
End Pool.

(** ** Sums *)
Lemma add_up_values : forall m l vs, Forall2 (fun c v => calculate m c = Val v) l vs -> forall a, add_up m l a = Val (fold_left fadd vs a).
Proof. intros m l vs H. induction H as [|c v l vs E F IH]; intros a; cbn [add_up fold_left]; [reflexivity|]. rewrite E. cbn [bind]. apply IH. Qed.
Lemma clamp_finite : forall vs, (forall v, In v vs -> isfinite v = true) -> map clamp vs = vs.
Proof. induction vs as [|v vs IH]; intros H; cbn [map]; [reflexivity|]. unfold clamp at 1. rewrite (H v) by now left. f_equal. apply IH. intros; apply H. now right. Qed.
Lemma sum_finite : forall vs a, isfinite a = true -> (forall v, In v vs -> isfinite v = true) -> isfinite (fold_left fadd vs a) = true.
Proof.
  induction vs as [|v vs IH]; intros a A H; cbn [fold_left]; [exact A|]. apply IH; [|intros; apply H; now right]. specialize (H v (or_introl eq_refl)). destruct a, v; try discriminate. reflexivity.
Qed.
Lemma sum_not_finite : forall vs a, isfinite a = false -> isfinite (fold_left fadd vs a) = false.
Proof. induction vs as [|v vs IH]; intros a A; cbn [fold_left]; [exact A|]. apply IH. destruct a as [|[]|], v as [|[]|]; try discriminate; reflexivity. Qed.
Lemma sum_not_finite_in : forall vs a v, In v vs -> isfinite v = false -> isfinite (fold_left fadd vs a) = false.
Proof.
  induction vs as [|u vs IH]; intros a v I V; [destruct I|]. cbn [fold_left]. destruct I as [->|I]; [|eapply IH; eassumption]. apply sum_not_finite. destruct a as [|[]|], v as [|[]|]; try discriminate; reflexivity.
Qed.

(** ** Pointers as text *)
Lemma cut_app : forall t s, (forall c, In c (list_ascii_of_string t) -> c <> "/"%char) -> cut (t ++ s) = let '(u, us) := cut s in (append t u, us).
Proof.
  induction t as [|c t IH]; intros s H; cbn [append cut]; [now destruct (cut s)|]. rewrite IH by (intros; apply H; now right). destruct (cut s) as [u us]. destruct (Ascii.eqb_spec c "/") as [E|]; [|reflexivity].
  exfalso. apply (H c); [now left|exact E].
Qed.
Lemma escape_no_slash : forall t c, In c (list_ascii_of_string (escape t)) -> c <> "/"%char.
Proof.
  induction t as [|a t IH]; intros c I; cbn [escape] in I; [destruct I|]. destruct (Ascii.eqb_spec a "~") as [->|N1]; [|destruct (Ascii.eqb_spec a "/") as [->|N2]].
  - cbn [list_ascii_of_string In] in I. destruct I as [<-|[<-|I]]; [discriminate|discriminate|auto].
  - cbn [list_ascii_of_string In] in I. destruct I as [<-|[<-|I]]; [discriminate|discriminate|auto].
  - cbn [list_ascii_of_string In] in I. destruct I as [<-|I]; auto.
Qed.
Lemma escape_ok : forall t, escapes_ok (escape t) = true.
Proof.
  induction t as [|a t IH]; [reflexivity|]. cbn [escape]. destruct (Ascii.eqb_spec a "~") as [->|N1]; [|destruct (Ascii.eqb_spec a "/") as [->|N2]]; cbn [escapes_ok Ascii.eqb Bool.eqb]; rewrite ?IH; try reflexivity.
  destruct (Ascii.eqb_spec a "~"); [contradiction|reflexivity].
Qed.
(** after the first replacement only the tildes are escaped *)
Fixpoint escape_tilde (s : string) : string :=
  match s with EmptyString => EmptyString | String c r => if Ascii.eqb c "~" then String "~" (String "0" (escape_tilde r)) else String c (escape_tilde r) end.
Lemma replace_other : forall a b x c s, c <> a -> replace2 a b x (String c s) = String c (replace2 a b x s).
Proof. intros a b x c s N. cbn [replace2]. destruct s; [reflexivity|]. destruct (Ascii.eqb_spec c a); [contradiction|reflexivity]. Qed.
Lemma replace_first : forall t, replace2 "~" "1" "/" (escape t) = escape_tilde t.
Proof.
  induction t as [|a t IH]; [reflexivity|]. cbn [escape escape_tilde]. destruct (Ascii.eqb_spec a "~") as [->|N1]; [|destruct (Ascii.eqb_spec a "/") as [->|N2]].
  - change (replace2 "~" "1" "/" (String "~" (String "0" (escape t)))) with (String "~" (replace2 "~" "1" "/" (String "0" (escape t)))). rewrite replace_other by discriminate. now rewrite IH.
  - change (replace2 "~" "1" "/" (String "~" (String "1" (escape t)))) with (String "/" (replace2 "~" "1" "/" (escape t))). now rewrite IH.
  - rewrite replace_other by exact N1. now rewrite IH.
Qed.
Lemma replace_second : forall t, replace2 "~" "0" "~" (escape_tilde t) = t.
Proof.
  induction t as [|a t IH]; [reflexivity|]. cbn [escape_tilde]. destruct (Ascii.eqb_spec a "~") as [->|N1].
  - change (replace2 "~" "0" "~" (String "~" (String "0" (escape_tilde t)))) with (String "~" (replace2 "~" "0" "~" (escape_tilde t))). now rewrite IH.
  - rewrite replace_other by exact N1. now rewrite IH.
Qed.
Lemma unescape_escape : forall t, unescape (escape t) = Val t.
Proof. intros t. unfold unescape. now rewrite escape_ok, replace_first, replace_second. Qed.
Lemma cut_text : forall t p, cut (append (escape t) (pointer_text p)) = (escape t, map escape p).
Proof.
  intros t p. revert t. induction p as [|u p IH]; intros t.
  - rewrite cut_app by apply escape_no_slash. cbn [pointer_text cut map]. f_equal. induction (escape t); cbn; congruence.
  - rewrite cut_app by apply escape_no_slash. cbn [pointer_text cut map]. rewrite IH. cbn [Ascii.eqb Bool.eqb]. f_equal. induction (escape t); cbn; congruence.
Qed.
Lemma parse_text : forall p, parse_pointer (pointer_text p) = Val p.
Proof.
  intros [|t p]; [reflexivity|]. cbn [pointer_text parse_pointer Ascii.eqb Bool.eqb]. rewrite cut_text. cbn [map_res]. rewrite unescape_escape. cbn [bind].
  assert (M : map_res unescape (map escape p) = Val p) by (induction p as [|u p IH]; cbn [map map_res]; [reflexivity|]; rewrite unescape_escape; cbn [bind]; now rewrite IH). now rewrite M.
Qed.
