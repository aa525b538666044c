(** C90: the holders of models behind the interface.
    C91: derivatives in extended precision, and the effective hardness. *)
From Coq Require Import Reals ZArith List Bool Lra Lia.
From Coquelicot Require Import Coquelicot.
From Verif Require Import Json_model Cubic_model Numerics_model Adapter_model Adapter_spec Adapter_proofs.
Import ListNotations.
Local Open Scope R_scope.

(** * C90 *)
Definition made {V} (m : memory V) (l fresh : nat) (m' : memory V) (a : adapter) : Prop :=
  make_owned m l fresh = Some (m', a) \/ make_cview m l = Some (m', a).
(** A typed reference is found exactly for the type of the model, whether owned or viewed, and refers to it. *)
Theorem C90_reference : forall V (m : memory V) l fresh m' a t v c t', m l = Some (t, v) -> made m l fresh m' a ->
  held m' a = Some (t, v) /\ get_type_index a = t /\
  get_model_cref {| ty_const := c; ty_of := t' |} (Some a) = if Nat.eqb t' t then Val (ad_model a) else Err InvalidArgument.
Proof.
  intros V m l fresh m' a t v c t' H [M | M]; [unfold make_owned in M | unfold make_cview in M]; rewrite H in M; injection M as <- <-; unfold held, get_model_cref, is_viewer, is_owner, ty_eqb; cbn [ad_model ad_holder ty_const ty_of get_type_index Bool.eqb andb].
  - unfold update. rewrite Nat.eqb_refl. split; [reflexivity|]. split; [reflexivity|]. reflexivity.
  - split; [assumption|]. split; [reflexivity|]. destruct (Nat.eqb t' t); reflexivity.
Qed.
Theorem C90_null : forall t, get_model_cref t None = Err InvalidArgument /\ get_model_ref t None = Err InvalidArgument.
Proof. intros t. split; reflexivity. Qed.
(** There is an adapter exactly for an object that is alive, and making one changes no other object. *)
Theorem C90_others : forall V (m : memory V) l fresh m' a k, made m l fresh m' a -> k <> fresh -> m' k = m k.
Proof.
  intros V m l fresh m' a k [M | M] K; [unfold make_owned in M | unfold make_cview in M]; destruct (m l) as [[t v]|]; try discriminate; injection M as <- <-; [|reflexivity]. unfold update. destruct (Nat.eqb_spec k fresh); [contradiction|reflexivity].
Qed.
Lemma act_other : forall V (m : memory V) c k, target c <> k -> act m c k = m k.
Proof.
  intros V m c k H. destruct c as [l v|l|l t v]; cbn [act target] in *; [destruct (m l) as [[t w]|]; [|reflexivity]| |]; unfold update; (destruct (Nat.eqb_spec k l); [congruence|reflexivity]).
Qed.
Lemma acts_other : forall V cs (m : memory V) k, List.Forall (fun c => target c <> k) cs -> acts m cs k = m k.
Proof. induction cs as [|c cs IH]; intros m k H; [reflexivity|]. inversion H; subst. unfold acts in *. cbn [fold_left]. rewrite IH by assumption. now apply act_other. Qed.
(** What a holder owns stays as it was, whatever is done to other objects, the original included. *)
Theorem C90_owned : forall V (m : memory V) l fresh m' a t v cs, m l = Some (t, v) -> make_owned m l fresh = Some (m', a) -> List.Forall (fun c => target c <> fresh) cs -> held (acts m' cs) a = Some (t, v).
Proof.
  intros V m l fresh m' a t v cs H M F. pose proof (C90_reference V m l fresh m' a t v true t H (or_introl M)) as [E _]. unfold make_owned in M. rewrite H in M. injection M as <- <-. unfold held in *. cbn [ad_model] in *. now rewrite acts_other.
Qed.
(** A view shows the object as it is, and nothing when its life has ended. *)
Theorem C90_view : forall V (m : memory V) l m' a t v w cs, m l = Some (t, v) -> make_cview m l = Some (m', a) -> List.Forall (fun c => target c <> l) cs ->
  held (acts m' cs) a = Some (t, v) /\ held (acts m' (cs ++ [Assign l w])) a = Some (t, w) /\ held (acts m' (cs ++ [Destroy l])) a = None.
Proof.
  intros V m l m' a t v w cs H M F. unfold make_cview in M. rewrite H in M. injection M as <- <-. unfold held. cbn [ad_model]. rewrite acts_other by assumption. split; [assumption|]. unfold acts. rewrite !fold_left_app. cbn [fold_left]. change (fold_left act cs m) with (acts m cs). cbn [act]. rewrite acts_other by assumption. rewrite H. unfold update. rewrite Nat.eqb_refl. split; reflexivity.
Qed.
Theorem C90_dangling_refuted : ~ (forall V (m : memory V) l m' a cs, make_cview m l = Some (m', a) -> held (acts m' cs) a <> None).
Proof.
  intros H. apply (H unit (fun _ => Some (0%nat, tt)) 0%nat (fun _ => Some (0%nat, tt)) _ [Destroy 0%nat] eq_refl). reflexivity.
Qed.
(** A mutable reference: only for a holder of exactly the type expression, and never for what
    [make_owned] makes of a model, because its holder is one of a [const] type. *)
Theorem C90_mutable : forall V (m : memory V) l fresh m' a c t', made m l fresh m' a ->
  get_model_ref {| ty_const := false; ty_of := t' |} (Some a) = Err InvalidArgument /\
  (get_model_ref {| ty_const := c; ty_of := t' |} (Some a) = Val (ad_model a) -> c = true /\ make_owned m l fresh = Some (m', a) /\ exists v, m l = Some (t', v)).
Proof.
  intros V m l fresh m' a c t' M. assert (M' := M). destruct M as [M | M]; [unfold make_owned in M | unfold make_cview in M]; destruct (m l) as [[t v]|] eqn:E; try discriminate; injection M as <- <-; unfold get_model_ref, is_owner, ty_eqb; cbn [ad_model ad_holder ty_const ty_of Bool.eqb andb]; (split; [reflexivity|]); [|discriminate].
  destruct c; cbn [Bool.eqb andb]; [|discriminate]. destruct (Nat.eqb_spec t' t); [|discriminate]. subst t'. intros _. split; [reflexivity|]. split; [unfold make_owned; now rewrite E|]. now exists v.
Qed.
Theorem C90_mutable_refuted : ~ (forall V (m : memory V) l fresh m' a t v, m l = Some (t, v) -> make_owned m l fresh = Some (m', a) -> get_model_ref {| ty_const := false; ty_of := t |} (Some a) = Val (ad_model a)).
Proof.
  intros H. specialize (H unit (fun _ => Some (0%nat, tt)) 0%nat 1%nat _ _ 0%nat tt eq_refl eq_refl). discriminate.
Qed.
Example C90_met : exists m' a, made (fun k => if Nat.eqb k 3 then Some (7%nat, true) else None) 3 9 m' a /\ held (acts m' [Assign 3%nat false; Destroy 3%nat]) a = Some (7%nat, true).
Proof. do 2 eexists. split; [left; reflexivity|reflexivity]. Qed.

(** * C91 *)
(** The error is 1.6e-65 of the bound of the derivative four orders higher, all derivatives being
    multiplied with the density to the power of their order. *)
Theorem C91_error : forall n alphar T rho z M, (1 <= n <= 3)%nat -> 0 < rho -> smooth (fun r => alphar T r z) (n + 4) M rho (4e-16 * rho) ->
  exists v, get_Ar0nep n alphar T rho z = ok v /\ Rabs (v - rho ^ n * Derive_n (fun r => alphar T r z) n rho) <= 1.6e-65 * (rho ^ (n + 4) * M).
Proof.
  intros n alphar T rho z M N P S. unfold get_Ar0nep. destruct (Req_EM_T rho 0); [lra|]. assert (H : 0 < 1e-16 * rho) by lra.
  assert (E : exists d, centered_diff (Z.of_nat n) 4 (fun r => alphar T r z) rho (1e-16 * rho) = Val d /\ Rabs (d - Derive_n (fun r => alphar T r z) n rho) <= 4 / 25 * (1e-16 * rho) ^ 4 * M).
  { assert (MP : 0 <= M) by (pose proof (proj2 (S rho ltac:(unfold Rminus; rewrite Rplus_opp_r, Rabs_R0; lra))) as Q; pose proof (Rabs_pos (Derive_n (fun r => alphar T r z) (n + 4) rho)); lra).
    assert (C : 0 <= (1e-16 * rho) ^ 4 * M) by (apply Rmult_le_pos; [left; now apply pow_lt|assumption]).
    destruct n as [|[|[|[|n]]]]; try lia.
    - destruct (error_1 _ M rho (1e-16 * rho) _ S H ltac:(lra)) as (d & E & B). exists d. split; [exact E|]. eapply Rle_trans; [exact B|]. lra.
    - destruct (error_2 _ M rho (1e-16 * rho) _ S H ltac:(lra)) as (d & E & B). exists d. split; [exact E|]. eapply Rle_trans; [exact B|]. lra.
    - destruct (error_3 _ M rho (1e-16 * rho) _ S H ltac:(lra)) as (d & E & B). exists d. split; [exact E|]. exact B. }
  destruct E as (d & -> & B). cbn [bind]. exists (rho ^ n * d). split; [reflexivity|]. rewrite <- Rmult_minus_distr_l, Rabs_mult, Rabs_pos_eq by (left; now apply pow_lt). eapply Rle_trans; [apply Rmult_le_compat_l; [left; now apply pow_lt|exact B]|]. rewrite pow_add, Rpow_mult_distr. assert (K : 1e-16 ^ 4 = 1e-64) by (cbn [pow]; lra). rewrite K. generalize (rho ^ n) (rho ^ 4). intros p q. lra.
Qed.
(** Models that are polynomials of the density up to the order n + 3 get the exact derivative. *)
Theorem C91_exact : forall n alphar T rho z, (1 <= n <= 3)%nat -> 0 < rho -> smooth (fun r => alphar T r z) (n + 4) 0 rho (4e-16 * rho) ->
  get_Ar0nep n alphar T rho z = ok (rho ^ n * Derive_n (fun r => alphar T r z) n rho).
Proof.
  intros n alphar T rho z N P S. destruct (C91_error n alphar T rho z 0 N P S) as (v & -> & B). rewrite !Rmult_0_r in B. apply (f_equal ok), Rminus_diag_uniq. pose proof (Rabs_pos (v - rho ^ n * Derive_n (fun r => alphar T r z) n rho)) as Q. destruct (Req_EM_T (v - rho ^ n * Derive_n (fun r => alphar T r z) n rho) 0) as [|X]; [assumption|]. apply Rabs_pos_lt in X. lra.
Qed.
Theorem C91_vacuum_refuted : ~ (forall n alphar T rho z, (1 <= n <= 3)%nat -> 0 <= rho -> get_Ar0nep n alphar T rho z <> None).
Proof. intros H. apply (H 1%nat (fun _ _ _ => 0) 1 0 [] ltac:(lia) ltac:(lra)). unfold get_Ar0nep. destruct (Req_EM_T 0 0); [reflexivity|contradiction]. Qed.
Lemma exp_n : forall n x, is_derive_n exp n x (exp x).
Proof. induction n as [|n IH]; intros x; [reflexivity|]. cbn [is_derive_n]. apply (is_derive_ext exp); [intros t; symmetry; now apply is_derive_n_unique|]. apply is_derive_exp. Qed.
Example C91_met : smooth (fun r => (fun (T r : R) (_ : list R) => exp r) 300 r [1]) 5 (exp 2) 1 (4e-16 * 1).
Proof.
  intros t Ht. cbv beta. split; [intros k _; destruct k; [exact I|exists (exp t); exact (exp_n (S k) t)]|]. change (Rabs (Derive_n exp 5 t) <= exp 2). rewrite (is_derive_n_unique _ _ _ _ (exp_n 5 t)). rewrite Rabs_pos_eq by (left; apply exp_pos). apply Rabs_le_between in Ht. left. apply exp_increasing. lra.
Qed.
(** The effective hardness of a fluid whose molecules repel with the power [h] of the distance, whose
    energy depends on the density times the temperature to the power -3/h only, is [h] (tau is the
    reciprocal temperature). *)
Definition soft (F : R -> R) (h : R) (tau rho : R) : R := F (rho * Rpower tau (3 / h)).
Theorem C91_neff : forall F F1 F2 h tau rho, (forall x, 0 < x -> is_derive F x (F1 x) /\ is_derive F1 x (F2 x)) -> 0 < h -> 0 < tau -> 0 < rho ->
  tau ^ 2 * Derive_n (fun t => soft F h t rho) 2 tau <> 0 ->
  neff (rho * Derive (fun r => soft F h tau r) rho) (tau * rho * Derive (fun t => Derive (fun r => soft F h t r) rho) tau) (tau ^ 2 * Derive_n (fun t => soft F h t rho) 2 tau) = h.
Proof.
  intros F F1 F2 h tau rho HF Hh Ht Hr. set (a := 3 / h).
  assert (PD : forall t, 0 < t -> is_derive (fun t => Rpower t a) t (a * Rpower t a / t)).
  { intros t T. unfold Rpower. auto_derive; [assumption|]. field. lra. }
  assert (PP : forall t, 0 < Rpower t a) by (intros t; unfold Rpower; apply exp_pos).
  assert (DR : forall t r, 0 < r -> is_derive (fun r => soft F h t r) r (Rpower t a * F1 (r * Rpower t a))).
  { intros t r R0. unfold soft. fold a. apply (is_derive_comp F (fun r => r * Rpower t a) r (F1 (r * Rpower t a)) (Rpower t a)); [apply HF; apply Rmult_lt_0_compat; [assumption|apply PP]|]. auto_derive; [exact I|ring]. }
  assert (XD : forall t, 0 < t -> is_derive (fun t => rho * Rpower t a) t (rho * (a * Rpower t a / t))).
  { intros t T. apply (is_derive_scal (fun t => Rpower t a) t rho). now apply PD. }
  assert (C : forall G G' t, 0 < t -> (forall x, 0 < x -> is_derive G x (G' x)) -> is_derive (fun t => G (rho * Rpower t a)) t (rho * (a * Rpower t a / t) * G' (rho * Rpower t a))).
  { intros G G' t T D. apply (is_derive_comp G (fun t => rho * Rpower t a) t (G' (rho * Rpower t a)) (rho * (a * Rpower t a / t))); [apply D; apply Rmult_lt_0_compat; [assumption|apply PP]|now apply XD]. }
  assert (D1 : forall t, 0 < t -> is_derive (fun t => soft F h t rho) t (rho * (a * Rpower t a / t) * F1 (rho * Rpower t a))) by (intros t T; apply (C F F1 t T); intros x X; now apply HF).
  assert (D2 : is_derive (fun t => rho * (a * Rpower t a / t) * F1 (rho * Rpower t a)) tau ((rho * a * (a - 1) * Rpower tau a / tau ^ 2) * F1 (rho * Rpower tau a) + (rho * (a * Rpower tau a / tau)) * (rho * (a * Rpower tau a / tau) * F2 (rho * Rpower tau a)))).
  { apply (is_derive_mult (fun t => rho * (a * Rpower t a / t)) (fun t => F1 (rho * Rpower t a)) tau (rho * a * (a - 1) * Rpower tau a / tau ^ 2) (rho * (a * Rpower tau a / tau) * F2 (rho * Rpower tau a))); [| |exact Rmult_comm].
    - unfold Rpower. auto_derive; [split; [assumption|split; [lra|exact I]]|]. field. lra.
    - apply C; [assumption|]. intros x X. now apply HF. }
  assert (DM : is_derive (fun t => Rpower t a * F1 (rho * Rpower t a)) tau (a * Rpower tau a / tau * F1 (rho * Rpower tau a) + Rpower tau a * (rho * (a * Rpower tau a / tau) * F2 (rho * Rpower tau a)))).
  { apply (is_derive_mult (fun t => Rpower t a) (fun t => F1 (rho * Rpower t a)) tau (a * Rpower tau a / tau) (rho * (a * Rpower tau a / tau) * F2 (rho * Rpower tau a))); [now apply PD| |exact Rmult_comm]. apply C; [assumption|]. intros x X. now apply HF. }
  assert (E1 : Derive (fun r => soft F h tau r) rho = Rpower tau a * F1 (rho * Rpower tau a)) by (apply is_derive_unique; now apply DR).
  assert (EM : Derive (fun t => Derive (fun r => soft F h t r) rho) tau = a * Rpower tau a / tau * F1 (rho * Rpower tau a) + Rpower tau a * (rho * (a * Rpower tau a / tau) * F2 (rho * Rpower tau a))).
  { apply is_derive_unique. apply (is_derive_ext (fun t => Rpower t a * F1 (rho * Rpower t a))); [|exact DM]. intros t. symmetry. apply is_derive_unique. now apply DR. }
  assert (E2 : Derive_n (fun t => soft F h t rho) 2 tau = (rho * a * (a - 1) * Rpower tau a / tau ^ 2) * F1 (rho * Rpower tau a) + (rho * (a * Rpower tau a / tau)) * (rho * (a * Rpower tau a / tau) * F2 (rho * Rpower tau a))).
  { change (Derive (Derive (fun t => soft F h t rho)) tau = (rho * a * (a - 1) * Rpower tau a / tau ^ 2) * F1 (rho * Rpower tau a) + (rho * (a * Rpower tau a / tau)) * (rho * (a * Rpower tau a / tau) * F2 (rho * Rpower tau a))). apply is_derive_unique. apply (is_derive_ext_loc (fun t => rho * (a * Rpower t a / t) * F1 (rho * Rpower t a))); [|exact D2]. exists (mkposreal _ Ht). intros t T. symmetry. apply is_derive_unique, D1. change (Rabs (t - tau) < tau) in T. apply Rabs_def2 in T. lra. }
  rewrite E1, EM, E2. intros NZ. unfold neff. set (p := Rpower tau a) in *. set (f1 := F1 (rho * p)) in *. set (f2 := F2 (rho * p)) in *. assert (A0 : a <> 0) by (unfold a; apply Rgt_not_eq, Rdiv_lt_0_compat; lra).
  set (q := rho * p * f1 - (a * (rho * p * f1) + a * (rho * p * (rho * p) * f2))). assert (Q : tau ^ 2 * (rho * a * (a - 1) * p / tau ^ 2 * f1 + rho * (a * p / tau) * (rho * (a * p / tau) * f2)) = - (a * q)) by (unfold q; field; lra). rewrite Q in *.
  replace (rho * (p * f1) - tau * rho * (a * p / tau * f1 + p * (rho * (a * p / tau) * f2))) with q by (unfold q; field; lra). assert (q <> 0) by (intros Z; apply NZ; rewrite Z; ring). replace h with (3 / a) by (unfold a; field; lra). field. split; assumption.
Qed.
Example C91_neff_met : (forall x, 0 < x -> is_derive exp x (exp x) /\ is_derive exp x (exp x)) /\ 1 ^ 2 * Derive_n (fun t => soft exp 3 t 1) 2 1 <> 0.
Proof.
  split; [intros x _; split; apply is_derive_exp|]. rewrite (Derive_n_ext_loc _ exp).
  - rewrite (is_derive_n_unique _ _ _ _ (exp_n 2 1)). pose proof (exp_pos 1). lra.
  - exists (mkposreal 1 Rlt_0_1). intros t T. change (Rabs (t - 1) < 1) in T. apply Rabs_def2 in T. unfold soft. replace (3 / 3) with 1 by field. rewrite Rpower_1 by lra. now rewrite Rmult_1_l.
Qed.
Print Assumptions C90_reference.
Print Assumptions C90_null.
Print Assumptions C90_others.
Print Assumptions C90_owned.
Print Assumptions C90_view.
Print Assumptions C90_dangling_refuted.
Print Assumptions C90_mutable.
Print Assumptions C90_mutable_refuted.
Print Assumptions C91_error.
Print Assumptions C91_exact.
Print Assumptions C91_vacuum_refuted.
Print Assumptions C91_neff.
