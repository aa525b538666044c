(** C89: the superancillary equations of cubic equations of state. *)
From Coq Require Import Reals ZArith List Bool Lra Lia.
From Coquelicot Require Import Coquelicot.
From Verif Require Import Poly_spec Json_model Vec_spec Vec_proofs Cubic_model Cubic_spec Terms_model Ideal_model Assoc_model SuperAnc_tables SuperAnc_model SuperAnc_spec SuperAnc_proofs.
Import ListNotations.
Local Open Scope R_scope.

(** * Evaluation, for all expansions and tables *)
(** Clenshaw's method gives the Chebyshev series: with x at the angle t, sum_k c_k cos (k t). *)
Theorem C89_expansion : forall e x, proper e -> cheb_y e x = Some (expansion e x).
Proof. exact cheb_y_eq. Qed.
Lemma sumn_S_first : forall n f, sumn (S n) f = f 0%nat + sumn n (fun i => f (S i)).
Proof. induction n as [|n IH]; intros f; [cbn; ring|]. change (sumn (S (S n)) f) with (sumn (S n) f + f (S n)). rewrite IH. cbn [sumn]. ring. Qed.
Lemma tail_cos : forall c k t, cheb_tail k c (cos t) = sumn (length c) (fun j => nth j c 0 * cos (INR (k + j) * t)).
Proof.
  induction c as [|a c IH]; intros k t; [reflexivity|]. cbn [cheb_tail length]. rewrite sumn_S_first. cbn [nth]. rewrite Nat.add_0_r, chebT_cos. f_equal. rewrite IH. apply sumn_ext. intros j Hj. replace (S k + j)%nat with (k + S j)%nat by lia. reflexivity.
Qed.
Theorem C89_cosines : forall e t, proper e -> cheb_y e (e_min e + (e_max e - e_min e) * (1 + cos t) / 2) = Some (sumn (length (e_coeff e)) (fun k => nth k (e_coeff e) 0 * cos (INR k * t))).
Proof.
  intros e t P. rewrite C89_expansion by assumption. f_equal. unfold expansion. destruct P as [_ P]. replace ((2 * (e_min e + (e_max e - e_min e) * (1 + cos t) / 2) - (e_max e + e_min e)) / (e_max e - e_min e)) with (cos t) by (field; lra). apply tail_cos.
Qed.
(** One coefficient is not a constant. *)
Theorem C89_constant_refuted : ~ (forall c l r x, l < r -> cheb_y {| e_coeff := [c]; e_min := l; e_max := r |} x = Some c).
Proof. intros H. specialize (H 1 0 1 1 ltac:(lra)). unfold cheb_y, cdiv in H. cbn [e_coeff e_min e_max length] in H. destruct (Req_EM_T _ 0); [lra|]. cbn in H. injection H. lra. Qed.
(** The expansion that is used contains the argument; outside there is an exception. *)
Theorem C89_lookup : forall es x, joined es ->
  (first_T es <= x <= last_T es -> exists i, (i < length es)%nat /\ inside (nth i es no_cheb) x /\ superanc_y es x = ok (expansion (nth i es no_cheb) x)) /\
  (x < first_T es \/ last_T es < x -> superanc_y es x = throws StdInvalidArgument).
Proof.
  intros es x J. split; [now apply superanc_value|]. unfold first_T, last_T, superanc_y. destruct es as [|e es]; [contradiction|]. cbn [nth]. intros H. destruct (Rlt_dec x (e_min e)); [reflexivity|]. destruct (Rlt_dec _ x); [reflexivity|]. destruct H; contradiction.
Qed.
(** At the joints the expansion to the right is used. *)
Lemma joined_le : forall es i j, joined es -> (i < j < length es)%nat -> e_max (nth i es no_cheb) <= e_min (nth j es no_cheb).
Proof.
  intros es i j J H. induction j as [|j IH]; [lia|]. destruct (Nat.eq_dec i j) as [->|N].
  - destruct (joined_nth es j J ltac:(lia)) as [_ M]. rewrite M by lia. lra.
  - destruct (joined_nth es j J ltac:(lia)) as [[_ P] M]. specialize (IH ltac:(lia)). rewrite M in P by lia. lra.
Qed.
Theorem C89_inner : forall es x i, joined es -> (i < length es)%nat -> e_min (nth i es no_cheb) < x < e_max (nth i es no_cheb) \/ (e_min (nth i es no_cheb) < x <= e_max (nth i es no_cheb) /\ i = (length es - 1)%nat) ->
  superanc_y es x = ok (expansion (nth i es no_cheb) x).
Proof.
  intros es x i J Hi Hx. assert (R0 : first_T es <= x <= last_T es).
  { unfold first_T, last_T. rewrite last_nth. assert (A : e_min (nth 0 es no_cheb) <= e_min (nth i es no_cheb)). { destruct i; [lra|]. pose proof (joined_le es 0 (S i) J ltac:(lia)). destruct (joined_nth es 0 J ltac:(lia)) as [[_ P] _]. lra. }
    assert (B : e_max (nth i es no_cheb) <= e_max (nth (length es - 1) es no_cheb)). { destruct (Nat.eq_dec i (length es - 1)) as [->|N]; [lra|]. pose proof (joined_le es i (length es - 1) J ltac:(lia)). destruct (joined_nth es (length es - 1) J ltac:(lia)) as [[_ P] _]. lra. } lra. }
  destruct (superanc_value es x J R0) as (j & Hj & [I1 I2] & E). replace i with j; [assumption|]. destruct (Nat.lt_trichotomy i j) as [L|[Q|L]]; [|now symmetry|].
  - pose proof (joined_le es i j J ltac:(lia)). destruct Hx as [|[? ->]]; [lra|lia].
  - pose proof (joined_le es j i J ltac:(lia)). lra.
Qed.
Theorem C89_inner_met : joined [{| e_coeff := [1; 2]; e_min := 0; e_max := 1 |}; {| e_coeff := [3; 1; 1]; e_min := 1; e_max := 3 |}].
Proof. cbn. unfold proper. cbn. repeat split; try lia; lra. Qed.

(** * The tables *)
Definition tables : list (list cheb) := [vdW_p; vdW_rhoL; vdW_rhoV; SRK_p; SRK_rhoL; SRK_rhoV; PR_p; PR_rhoL; PR_rhoV].
Definition raws : list raw := [raw_vdW_p; raw_vdW_rhoL; raw_vdW_rhoV; raw_SRK_p; raw_SRK_rhoL; raw_SRK_rhoV; raw_PR_p; raw_PR_rhoL; raw_PR_rhoV].
Lemma tables_raws : tables = map table raws.
Proof. reflexivity. Qed.
Definition same (a b : Z * Z) : bool := ((fst a =? fst b) && (snd a =? snd b))%Z%bool.
Lemma same_eq : forall a b, same a b = true -> a = b.
Proof. intros [a b] [c d] H. unfold same in H. apply andb_true_iff in H. destruct H as [H1 H2]. apply Z.eqb_eq in H1, H2. cbn in *. now subst. Qed.
Fixpoint joined_raw (t : raw) : bool := match t with [] => false | [r] => good r | r :: ((r' :: _) as t') => (good r && same (snd r) (snd (fst r')) && joined_raw t')%bool end.
Lemma table_eq : forall t, table t = map cheb_of t.
Proof. reflexivity. Qed.
Lemma joined_raw_ok : forall t, joined_raw t = true -> joined (table t).
Proof.
  intros t. rewrite table_eq. induction t as [|r t IH]; intros H; [discriminate|]. destruct t as [|r' t]; [now apply good_proper|]. cbn [joined_raw] in H. apply andb_true_iff in H. destruct H as [H H3]. apply andb_true_iff in H. destruct H as [H1 H2]. apply same_eq in H2.
  cbn [map joined]. split; [now apply good_proper|]. split; [|now apply IH]. cbn [cheb_of e_max e_min]. now rewrite H2.
Qed.
Lemma raws_joined : forallb joined_raw raws = true.
Proof. vm_compute. reflexivity. Qed.
Lemma joined_good : forall t r, joined_raw t = true -> In r t -> good r = true.
Proof.
  induction t as [|q t IH]; intros r H I; [contradiction|]. destruct t as [|q' t]; [destruct I as [<-|[]]; exact H|]. cbn [joined_raw] in H. apply andb_true_iff in H. destruct H as [H H3]. apply andb_true_iff in H. destruct H as [H1 _]. destruct I as [<-|I]; [assumption|now apply IH].
Qed.
Theorem C89_tables : forall es, In es tables -> joined es /\ forall e, In e es -> length (e_coeff e) = 19%nat.
Proof.
  intros es I. rewrite tables_raws in I. apply in_map_iff in I. destruct I as (t & <- & I). split.
  - apply joined_raw_ok. pose proof raws_joined as H. rewrite forallb_forall in H. now apply H.
  - intros e He. rewrite table_eq in He. apply in_map_iff in He. destruct He as (r & <- & Hr). cbn [cheb_of e_coeff]. rewrite map_length. assert (H : forallb (fun t => forallb (fun r : piece => Nat.eqb (length (fst (fst r))) 19) t) raws = true) by (vm_compute; reflexivity).
    rewrite forallb_forall in H. specialize (H t I). rewrite forallb_forall in H. now apply Nat.eqb_eq, H.
Qed.
(** Their ranges: from a tenth of the critical reduced temperature R T_c b / a of the three equations on. *)
Definition critical (eos : Z) : R := match eos with 0%Z => 8 / 27 | 1%Z => 3 * (cbrt 2 - 1) ^ 2 | _ => PR_OmegaB / PR_OmegaA end.
Definition table_of (eos prop : Z) : list cheb :=
  match eos, prop with 0%Z, 100%Z => vdW_p | 0%Z, 101%Z => vdW_rhoL | 0%Z, 102%Z => vdW_rhoV | 1%Z, 100%Z => SRK_p | 1%Z, 101%Z => SRK_rhoL | 1%Z, 102%Z => SRK_rhoV | 2%Z, 100%Z => PR_p | 2%Z, 101%Z => PR_rhoL | 2%Z, 102%Z => PR_rhoV | _, _ => [] end.
Definition known (eos : Z) : Prop := eos = VDW_CODE \/ eos = SRK_CODE \/ eos = PR_CODE.
Definition property (p : Z) : Prop := p = P_CODE \/ p = RHOL_CODE \/ p = RHOV_CODE.
Theorem C89_codes : forall eos prop x, known eos -> property prop -> supercubic eos prop x = superanc_y (table_of eos prop) x /\ In (table_of eos prop) tables.
Proof. intros eos prop x K P. destruct K as [-> | [-> | ->]]; destruct P as [-> | [-> | ->]]; (split; [reflexivity|]); unfold tables; cbn [table_of VDW_CODE SRK_CODE PR_CODE P_CODE RHOL_CODE RHOV_CODE In]; tauto. Qed.
Theorem C89_unknown : forall eos prop x, ~ known eos -> supercubic eos prop x = ok (-1).
Proof.
  intros eos prop x N. unfold supercubic, known, VDW_CODE, SRK_CODE, PR_CODE in *. destruct eos as [|p|p]; [exfalso; apply N; auto| |reflexivity]. destruct p as [p|p|]; [reflexivity|destruct p as [p|p|]; [reflexivity|reflexivity|exfalso; apply N; auto]|exfalso; apply N; auto].
Qed.
Definition low (eos : Z) : R := match eos with 0%Z => 0.02962962962962963 | 1%Z => 0.020267685653535945 | _ => 0.01701444200703503 end.
Definition high (eos : Z) : R := match eos with 0%Z => 0.2962962962962963 | 1%Z => 0.20267685653535944 | _ => 0.1701444200703503 end.
Definition no_piece : piece := ([], (0, 0), (0, 0))%Z.
Lemma first_raw : forall t, (0 < length t)%nat -> first_T (table t) = decimal (snd (fst (nth 0 t no_piece))).
Proof. intros [|r t] H; [cbn in H; lia|reflexivity]. Qed.
Lemma last_raw : forall t, (0 < length t)%nat -> last_T (table t) = decimal (snd (last t no_piece)).
Proof.
  intros t H. unfold last_T. rewrite table_eq. induction t as [|r t IH]; [cbn in H; lia|]. destruct t as [|r' t]; [reflexivity|]. cbn [map last]. cbn [map last] in IH. apply IH. cbn. lia.
Qed.
Ltac a_decimal := unfold decimal; cbn [fst snd powerRZ]; match goal with |- context [Pos.to_nat ?p] => let n := eval vm_compute in (Pos.to_nat p) in change (Pos.to_nat p) with n end; lra.
Theorem C89_range : forall eos prop, known eos -> property prop -> first_T (table_of eos prop) = low eos /\ last_T (table_of eos prop) = high eos.
Proof.
  intros eos prop K P. destruct K as [-> | [-> | ->]]; destruct P as [-> | [-> | ->]]; unfold table_of, VDW_CODE, SRK_CODE, PR_CODE, P_CODE, RHOL_CODE, RHOV_CODE, low, high, vdW_p, vdW_rhoL, vdW_rhoV, SRK_p, SRK_rhoL, SRK_rhoV, PR_p, PR_rhoL, PR_rhoV;
  (rewrite first_raw, last_raw by (apply Nat.ltb_lt; vm_compute; reflexivity)); (split; [match goal with |- decimal ?d = _ => let n := eval vm_compute in d in replace d with n by (vm_compute; reflexivity) end; a_decimal|match goal with |- decimal ?d = _ => let n := eval vm_compute in d in replace d with n by (vm_compute; reflexivity) end; a_decimal]).
Qed.
Theorem C89_critical : forall eos, known eos -> Rabs (critical eos - high eos) <= 1 / 10 ^ 17 /\ Rabs (low eos - high eos / 10) <= 1 / 10 ^ 17.
Proof.
  intros eos [-> | [-> | ->]]; unfold critical, low, high, VDW_CODE, SRK_CODE, PR_CODE; (split; [|apply Rabs_le; lra]).
  - apply Rabs_le; lra.
  - set (y := cbrt 2). assert (Y : 0 < y /\ y ^ 3 = 2). { unfold y, cbrt. destruct (Rlt_dec 0 2); [|lra]. split; [apply exp_pos|]. rewrite <- Rpower_pow by apply exp_pos. rewrite Rpower_mult. replace (1 / 3 * INR 3) with 1 by (cbn; field). apply Rpower_1. lra. }
    destruct Y as [Y0 Y3]. clearbody y. assert (L : 1.259921049894873164 <= y). { destruct (Rle_dec 1.259921049894873164 y); [assumption|]. exfalso. assert (y ^ 3 <= 1.259921049894873164 ^ 3) by (apply pow_incr; lra). lra. }
    assert (U : y <= 1.259921049894873166). { destruct (Rle_dec y 1.259921049894873166); [assumption|]. exfalso. assert (1.259921049894873166 ^ 3 <= y ^ 3) by (apply pow_incr; lra). lra. }
    assert (L2 : 0.259921049894873164 ^ 2 <= (y - 1) ^ 2) by (apply pow_incr; lra). assert (U2 : (y - 1) ^ 2 <= 0.259921049894873166 ^ 2) by (apply pow_incr; lra). apply Rabs_le. lra.
  - unfold PR_OmegaA, PR_OmegaB. apply Rabs_le. lra.
Qed.

(** A claim about all points of a table *)
Lemma for_all_points : forall t (Q : R -> R -> Prop), joined_raw t = true -> (forall r x, In r t -> good r = true -> inside (cheb_of r) x -> Q x (expansion (cheb_of r) x)) ->
  forall x, first_T (table t) <= x <= last_T (table t) -> exists v, superanc_y (table t) x = ok v /\ Q x v.
Proof.
  intros t Q J H x Hx. destruct (superanc_value (table t) x (joined_raw_ok t J) Hx) as (i & Hi & I & E). rewrite E. eexists. split; [reflexivity|]. rewrite table_eq in *. rewrite map_length in Hi. rewrite (nth_indep _ no_cheb (cheb_of no_piece)) in * by now rewrite map_length. rewrite map_nth in *. apply H; [now apply nth_In|apply (joined_good t); [assumption|now apply nth_In]|assumption].
Qed.
Definition raw_of (eos prop : Z) : raw :=
  match eos, prop with 0%Z, 100%Z => raw_vdW_p | 0%Z, 101%Z => raw_vdW_rhoL | 0%Z, 102%Z => raw_vdW_rhoV | 1%Z, 100%Z => raw_SRK_p | 1%Z, 101%Z => raw_SRK_rhoL | 1%Z, 102%Z => raw_SRK_rhoV | 2%Z, 100%Z => raw_PR_p | 2%Z, 101%Z => raw_PR_rhoL | 2%Z, 102%Z => raw_PR_rhoV | _, _ => [] end.
Lemma raw_of_table : forall eos prop, known eos -> property prop -> table_of eos prop = table (raw_of eos prop) /\ In (raw_of eos prop) raws.
Proof. intros eos prop K P. destruct K as [-> | [-> | ->]]; destruct P as [-> | [-> | ->]]; (split; [reflexivity|]); unfold raws; cbn [raw_of VDW_CODE SRK_CODE PR_CODE P_CODE RHOL_CODE RHOV_CODE In]; tauto. Qed.
Lemma all_points : forall eos prop (Q : R -> R -> Prop), known eos -> property prop -> (forall r x, In r (raw_of eos prop) -> good r = true -> inside (cheb_of r) x -> Q x (expansion (cheb_of r) x)) ->
  forall x, low eos <= x <= high eos -> exists v, supercubic eos prop x = ok v /\ Q x v.
Proof.
  intros eos prop Q K P H x Hx. destruct (C89_codes eos prop x K P) as [-> _]. destruct (C89_range eos prop K P) as [R1 R2]. destruct (raw_of_table eos prop K P) as [E I]. rewrite E in *. apply for_all_points; [|assumption|rewrite R1, R2; assumption]. pose proof raws_joined as J. rewrite forallb_forall in J. now apply J.
Qed.
Definition zero_dec : Z * Z := (0, 0)%Z.
Definition minus_one_dec : Z * Z := (-1, 0)%Z.
Lemma raws_positive : forallb (fun t => forallb (surely_above 1 zero_dec) t) raws = true.
Proof. vm_compute. reflexivity. Qed.
Lemma raws_below_one : forallb (fun t => forallb (surely_above (-1) minus_one_dec) t) raws = true.
Proof. vm_compute. reflexivity. Qed.
(** Pressure and densities are positive and below one (densities in units of 1 / b) in the whole range,
    and outside of it there is an exception. *)
Theorem C89_values : forall eos prop x, known eos -> property prop ->
  (low eos <= x <= high eos -> exists v, supercubic eos prop x = ok v /\ 0 < v < 1) /\
  (x < low eos \/ high eos < x -> supercubic eos prop x = throws StdInvalidArgument).
Proof.
  intros eos prop x K P. split.
  - apply (all_points eos prop (fun _ v => 0 < v < 1)); [assumption|assumption|]. intros r y Hr G I. destruct (raw_of_table eos prop K P) as [_ IR].
    pose proof raws_positive as H1. rewrite forallb_forall in H1. specialize (H1 _ IR). rewrite forallb_forall in H1. pose proof raws_below_one as H2. rewrite forallb_forall in H2. specialize (H2 _ IR). rewrite forallb_forall in H2.
    pose proof (surely_above_ok 1 zero_dec r y G eq_refl (H1 r Hr) I) as A. pose proof (surely_above_ok (-1) minus_one_dec r y G eq_refl (H2 r Hr) I) as B. unfold decimal, zero_dec, minus_one_dec in *. cbn [fst snd powerRZ] in *. lra.
  - destruct (C89_codes eos prop x K P) as [-> I]. destruct (C89_range eos prop K P) as [<- <-]. destruct (C89_tables _ I) as [J _]. now apply C89_lookup.
Qed.
(** The pressure rises within every expansion; so does the density of the vapour, and that of the
    liquid falls, within every expansion but the last one. *)
Definition last_start (t : raw) : Z * Z := snd (fst (last t no_piece)).
Definition rises_but_last (sg : Z) (t : raw) : bool := forallb (rises sg) (removelast t).
Lemma raws_rise : (forallb (fun t => forallb (rises 1) t) [raw_vdW_p; raw_SRK_p; raw_PR_p] && forallb (rises_but_last 1) [raw_vdW_rhoV; raw_SRK_rhoV; raw_PR_rhoV] && forallb (rises_but_last (-1)) [raw_vdW_rhoL; raw_SRK_rhoL; raw_PR_rhoL])%bool = true.
Proof. vm_compute. reflexivity. Qed.
Lemma removelast_In : forall t (i : nat), (S i < length t)%nat -> In (nth i t no_piece) (removelast t).
Proof.
  induction t as [|r t IH]; intros i H; [cbn in H; lia|]. destruct t as [|r' t]; [cbn in H; lia|]. change (removelast (r :: r' :: t)) with (r :: removelast (r' :: t)). destruct i as [|i]; [now left|]. right. cbn [nth]. apply IH. cbn [length] in *. lia.
Qed.
Lemma piece_nth : forall t i, (i < length t)%nat -> nth i (table t) no_cheb = cheb_of (nth i t no_piece).
Proof. intros t i H. rewrite table_eq. rewrite (nth_indep _ no_cheb (cheb_of no_piece)) by now rewrite map_length. apply map_nth. Qed.
Theorem C89_monotone : forall eos, known eos ->
  (forall i, (i < length (table_of eos P_CODE))%nat -> increasing_on (nth i (table_of eos P_CODE) no_cheb)) /\
  (forall i, (S i < length (table_of eos RHOL_CODE))%nat -> decreasing_on (nth i (table_of eos RHOL_CODE) no_cheb)) /\
  (forall i, (S i < length (table_of eos RHOV_CODE))%nat -> increasing_on (nth i (table_of eos RHOV_CODE) no_cheb)).
Proof.
  intros eos K. pose proof raws_rise as H. apply andb_true_iff in H. destruct H as [H HL]. apply andb_true_iff in H. destruct H as [HP HV]. rewrite forallb_forall in HP, HL, HV.
  assert (IP : In (raw_of eos P_CODE) [raw_vdW_p; raw_SRK_p; raw_PR_p]) by (destruct K as [-> | [-> | ->]]; cbn; tauto).
  assert (IL : In (raw_of eos RHOL_CODE) [raw_vdW_rhoL; raw_SRK_rhoL; raw_PR_rhoL]) by (destruct K as [-> | [-> | ->]]; cbn; tauto).
  assert (IV : In (raw_of eos RHOV_CODE) [raw_vdW_rhoV; raw_SRK_rhoV; raw_PR_rhoV]) by (destruct K as [-> | [-> | ->]]; cbn; tauto).
  pose proof raws_joined as J. rewrite forallb_forall in J.
  destruct (raw_of_table eos P_CODE K ltac:(unfold property; tauto)) as [EP JP]. destruct (raw_of_table eos RHOL_CODE K ltac:(unfold property; tauto)) as [EL JL]. destruct (raw_of_table eos RHOV_CODE K ltac:(unfold property; tauto)) as [EV JV].
  specialize (HP _ IP). specialize (HL _ IL). specialize (HV _ IV). unfold rises_but_last in *. rewrite forallb_forall in HP, HL, HV. rewrite EP, EL, EV.
  assert (LT : forall t, length (table t) = length t) by (intros; rewrite table_eq; apply map_length). rewrite !LT. repeat split.
  - intros i Hi. rewrite piece_nth by assumption. intros x y Ix Iy L. pose proof (rises_ok 1 _ x y (joined_good _ _ (J _ JP) (nth_In _ _ Hi)) (HP _ (nth_In _ _ Hi)) Ix Iy L). lra.
  - intros i Hi. rewrite piece_nth by lia. intros x y Ix Iy L. pose proof (rises_ok (-1) _ x y (joined_good _ _ (J _ JL) (nth_In _ _ (Nat.lt_succ_l _ _ Hi))) (HL _ (removelast_In _ _ Hi)) Ix Iy L). lra.
  - intros i Hi. rewrite piece_nth by lia. intros x y Ix Iy L. pose proof (rises_ok 1 _ x y (joined_good _ _ (J _ JV) (nth_In _ _ (Nat.lt_succ_l _ _ Hi))) (HV _ (removelast_In _ _ Hi)) Ix Iy L). lra.
Qed.
(** Where two expansions meet their values agree within 3e-13. *)
Fixpoint meet (t : raw) : bool := match t with r :: ((r' :: _) as t') => ((Z.abs (at_end r - at_start r') * 10 ^ 13 <=? 3 * Z.abs (at_start r'))%Z && meet t')%bool | _ => true end.
Lemma raws_meet : forallb meet raws = true.
Proof. vm_compute. reflexivity. Qed.
Lemma meet_nth : forall t i, meet t = true -> (S i < length t)%nat -> (Z.abs (at_end (nth i t no_piece) - at_start (nth (S i) t no_piece)) * 10 ^ 13 <= 3 * Z.abs (at_start (nth (S i) t no_piece)))%Z.
Proof.
  induction t as [|r t IH]; intros i H L; [cbn in L; lia|]. destruct t as [|r' t]; [cbn in L; lia|]. cbn [meet] in H. apply andb_true_iff in H. destruct H as [H1 H2]. destruct i as [|i]; [now apply Z.leb_le|]. apply (IH i H2). cbn [length] in *. lia.
Qed.
Theorem C89_joints : forall es i, In es tables -> (S i < length es)%nat ->
  agree (3 / 10 ^ 13) (expansion (nth i es no_cheb) (e_max (nth i es no_cheb))) (expansion (nth (S i) es no_cheb) (e_min (nth (S i) es no_cheb))).
Proof.
  intros es i I L. rewrite tables_raws in I. apply in_map_iff in I. destruct I as (t & <- & I). rewrite table_eq, map_length in L. rewrite (piece_nth t i) by exact (Nat.lt_succ_l _ _ L). rewrite (piece_nth t (S i)) by exact L. pose proof raws_meet as M. rewrite forallb_forall in M. pose proof raws_joined as J. rewrite forallb_forall in J.
  pose proof (meet_nth t i (M t I) L) as H. destruct (end_value _ (joined_good t _ (J t I) (nth_In t no_piece (Nat.lt_succ_l _ _ L)))) as [E1 _]. destruct (end_value _ (joined_good t _ (J t I) (nth_In t no_piece L))) as [_ E2]. unfold agree.
  apply IZR_le in H. rewrite !mult_IZR, !abs_IZR, minus_IZR, <- E1, <- E2 in H. rewrite <- Rmult_minus_distr_r, !Rabs_mult in H. rewrite (Rabs_pos_eq unit) in H by (left; apply unit_pos). change (IZR (10 ^ 13)) with 10000000000000 in H. pose proof unit_pos as U.
  apply Rmult_le_reg_r with unit; [assumption|]. match goal with |- ?a * unit <= ?k * ?b * unit => set (A := a) in *; set (B := b) in * end. clearbody A B. assert (A * unit * 10000000000000 <= 3 * (B * unit)) by exact H. lra.
Qed.

(** * Below the last expansion there is more liquid than vapour *)
Definition near_critical (eos : Z) : R := match eos with 0%Z => 0.29629527904369213 | 1%Z => 0.20267616069959404 | _ => 0.1701438359258417 end.
Definition between (eos : Z) : Z * Z := match eos with 0%Z => (3333, -4)%Z | 1%Z => (2599, -4)%Z | _ => (2530, -4)%Z end.
Definition opposite (d : Z * Z) : Z * Z := ((- fst d)%Z, snd d).
Lemma order_checked : forallb (fun eos => (forallb (surely_above 1 (between eos)) (removelast (raw_of eos 101)) && forallb (surely_above (-1) (opposite (between eos))) (removelast (raw_of eos 102)) && fits (between eos))%bool) [0; 1; 2]%Z = true.
Proof. vm_compute. reflexivity. Qed.
Lemma last_starts : forall eos prop, known eos -> prop = RHOL_CODE \/ prop = RHOV_CODE -> decimal (last_start (raw_of eos prop)) = near_critical eos.
Proof.
  intros eos prop K P. destruct K as [-> | [-> | ->]]; destruct P as [-> | ->]; unfold near_critical, VDW_CODE, SRK_CODE, PR_CODE, RHOL_CODE, RHOV_CODE; match goal with |- decimal ?d = _ => let n := eval vm_compute in d in replace d with n by (vm_compute; reflexivity) end; a_decimal.
Qed.
Lemma In_last : forall t (r : piece), In r t -> In r (removelast t) \/ r = last t no_piece.
Proof.
  induction t as [|q t IH]; intros r H; [contradiction|]. destruct t as [|q' t]; [destruct H as [<-|[]]; now right|]. change (removelast (q :: q' :: t)) with (q :: removelast (q' :: t)). change (last (q :: q' :: t) no_piece) with (last (q' :: t) no_piece). destruct H as [<-|H]; [left; now left|]. destruct (IH r H); [left; now right|now right].
Qed.
Theorem C89_order : forall eos x, known eos -> low eos <= x < near_critical eos -> exists l v, supercubic eos RHOL_CODE x = ok l /\ supercubic eos RHOV_CODE x = ok v /\ 0 < v < l /\ l < 1.
Proof.
  intros eos x K Hx. assert (NC : near_critical eos <= high eos) by (destruct K as [-> | [-> | ->]]; cbn [near_critical high VDW_CODE SRK_CODE PR_CODE]; lra).
  pose proof order_checked as H. rewrite forallb_forall in H. assert (I3 : In eos [0; 1; 2]%Z) by (destruct K as [-> | [-> | ->]]; cbn; tauto). specialize (H eos I3). apply andb_true_iff in H. destruct H as [H F]. apply andb_true_iff in H. destruct H as [HL HV]. rewrite forallb_forall in HL, HV.
  assert (SR : forall prop r y, prop = RHOL_CODE \/ prop = RHOV_CODE -> In r (raw_of eos prop) -> inside (cheb_of r) y -> y < near_critical eos -> In r (removelast (raw_of eos prop))).
  { intros prop r y P Ir [I1 _] L. destruct (In_last _ _ Ir) as [X | ->]; [assumption|]. exfalso. cbn [cheb_of e_min] in I1. change (snd (fst (last (raw_of eos prop) no_piece))) with (last_start (raw_of eos prop)) in I1. rewrite last_starts in I1 by assumption. lra. }
  assert (AL : forall r y, In r (raw_of eos RHOL_CODE) -> good r = true -> inside (cheb_of r) y -> y < near_critical eos -> decimal (between eos) < expansion (cheb_of r) y).
  { intros r y Ir G I L. pose proof (surely_above_ok 1 (between eos) r y G F (HL r (SR RHOL_CODE r y (or_introl eq_refl) Ir I L)) I). lra. }
  assert (AV : forall r y, In r (raw_of eos RHOV_CODE) -> good r = true -> inside (cheb_of r) y -> y < near_critical eos -> expansion (cheb_of r) y < decimal (between eos)).
  { intros r y Ir G I L. pose proof (surely_above_ok (-1) (opposite (between eos)) r y G F (HV r (SR RHOV_CODE r y (or_intror eq_refl) Ir I L)) I) as Q. unfold decimal, opposite in *. cbn [fst snd] in *. rewrite opp_IZR in Q. lra. }
  destruct (all_points eos RHOL_CODE (fun y l => y < near_critical eos -> decimal (between eos) < l) K ltac:(unfold property; tauto) AL x ltac:(lra)) as (l & El & Ql). destruct (all_points eos RHOV_CODE (fun y v => y < near_critical eos -> v < decimal (between eos)) K ltac:(unfold property; tauto) AV x ltac:(lra)) as (v & Ev & Qv).
  destruct (proj1 (C89_values eos RHOL_CODE x K ltac:(unfold property; tauto)) ltac:(lra)) as (l' & El' & Bl). destruct (proj1 (C89_values eos RHOV_CODE x K ltac:(unfold property; tauto)) ltac:(lra)) as (v' & Ev' & Bv). rewrite El in El'. injection El' as <-. rewrite Ev in Ev'. injection Ev' as <-. specialize (Ql ltac:(lra)). specialize (Qv ltac:(lra)). exists l, v. repeat split; try assumption; lra.
Qed.
(** At the upper end the order is lost for two of the equations. *)
Lemma upper_end : forall eos prop, known eos -> property prop -> supercubic eos prop (high eos) = ok (expansion (cheb_of (last (raw_of eos prop) no_piece)) (e_max (cheb_of (last (raw_of eos prop) no_piece)))).
Proof.
  intros eos prop K P. destruct (C89_codes eos prop (high eos) K P) as [-> I]. destruct (C89_range eos prop K P) as [_ <-]. destruct (C89_tables _ I) as [J _]. destruct (raw_of_table eos prop K P) as [E _]. rewrite E in *. assert (N : (0 < length (table (raw_of eos prop)))%nat) by (destruct (table (raw_of eos prop)); [contradiction|cbn; lia]).
  destruct (joined_nth _ (length (table (raw_of eos prop)) - 1) J ltac:(lia)) as [[_ PP] _]. unfold last_T. rewrite !last_nth. rewrite (C89_inner _ _ (length (table (raw_of eos prop)) - 1) J); [|lia|right; split; [lra|reflexivity]].
  assert (Q : nth (length (table (raw_of eos prop)) - 1) (table (raw_of eos prop)) no_cheb = cheb_of (last (raw_of eos prop) no_piece)); [|now rewrite Q].
  rewrite <- last_nth. rewrite table_eq in *. clear -N. induction (raw_of eos prop) as [|r t IH]; [cbn in N; lia|]. destruct t as [|r' t]; [reflexivity|]. cbn [map last]. cbn [map last] in IH. apply IH. cbn. lia.
Qed.
Theorem C89_end_refuted : ~ (forall eos x l v, known eos -> low eos <= x <= high eos -> supercubic eos RHOL_CODE x = ok l -> supercubic eos RHOV_CODE x = ok v -> v <= l).
Proof.
  intros H. assert (K : known 0) by (left; reflexivity). specialize (H 0%Z (high 0) _ _ K ltac:(cbn [low high]; lra) (upper_end 0 RHOL_CODE K ltac:(unfold property; tauto)) (upper_end 0 RHOV_CODE K ltac:(unfold property; tauto))).
  assert (GL : good (last (raw_of 0 RHOL_CODE) no_piece) = true) by (vm_compute; reflexivity). assert (GV : good (last (raw_of 0 RHOV_CODE) no_piece) = true) by (vm_compute; reflexivity).
  apply (Rmult_le_compat_r unit) in H; [|left; apply unit_pos]. rewrite (proj1 (end_value _ GL)), (proj1 (end_value _ GV)) in H. apply le_IZR in H. vm_compute in H. apply H. reflexivity.
Qed.

(** * Densities of a fluid *)
Theorem C89_densities : forall eos Rg T a b, known eos -> 0 < a -> 0 < b ->
  (low eos <= Rg * T * b / a <= high eos -> exists l v, densities_at eos Rg T a b = ok (l, v) /\ 0 < l < 1 / b /\ 0 < v < 1 / b /\ (Rg * T * b / a < near_critical eos -> v < l)) /\
  (Rg * T * b / a < low eos \/ high eos < Rg * T * b / a -> densities_at eos Rg T a b = throws StdInvalidArgument).
Proof.
  intros eos Rg T a b K A B. unfold densities_at, cdiv. destruct (Req_EM_T a 0); [lra|]. destruct (Req_EM_T b 0); [lra|]. unfold fin. set (x := Rg * T * b / a). match goal with |- context [obind (ok x) ?f] => change (obind (ok x) f) with (f x) end. cbv beta. split.
  - intros Hx. destruct (proj1 (C89_values eos RHOL_CODE x K ltac:(unfold property; tauto)) Hx) as (l & El & Bl). destruct (proj1 (C89_values eos RHOV_CODE x K ltac:(unfold property; tauto)) Hx) as (v & Ev & Bv). rewrite El, Ev. exists (l / b), (v / b). split; [reflexivity|]. assert (D : forall w, 0 < w < 1 -> 0 < w / b < 1 / b). { intros w W. split; [apply Rdiv_lt_0_compat; lra|]. unfold Rdiv. apply Rmult_lt_compat_r; [apply Rinv_0_lt_compat; lra|lra]. } split; [now apply D|]. split; [now apply D|].
    intros Hn. destruct (C89_order eos x K ltac:(lra)) as (l' & v' & El' & Ev' & O & _). rewrite El in El'. injection El' as <-. rewrite Ev in Ev'. injection Ev' as <-. unfold Rdiv. apply Rmult_lt_compat_r; [apply Rinv_0_lt_compat; lra|lra].
  - intros Hx. rewrite (proj2 (C89_values eos RHOL_CODE x K ltac:(unfold property; tauto)) Hx). reflexivity.
Qed.
Lemma nth_seq : forall (f : nat -> R) n j, (j < n)%nat -> nth j (map f (seq 0 n)) 0 = f j.
Proof. intros f n j H. rewrite (nth_indep _ 0 (f 0%nat)) by (now rewrite map_length, seq_length). now rewrite map_nth, seq_nth. Qed.
(** Only the component that was asked for matters. *)
Theorem C89_component : forall code c T i, (1 < length (cb_ai c))%nat -> (i < length (cb_ai c))%nat -> length (cb_alphas c) = length (cb_ai c) -> cb_k c i i = 0 -> 0 <= nth i (cb_ai c) 0 * alpha_at (cb_alphas c) i T ->
  cubic_superanc code c T (Some i) = densities_at code (cb_R c) T (nth i (cb_ai c) 0 * alpha_at (cb_alphas c) i T) (nth i (cb_bi c) 0).
Proof.
  intros code c T i N Hi L Kii P. unfold cubic_superanc, chosen. destruct (Nat.ltb_spec 1 (length (cb_ai c))); [|lia]. destruct (Nat.ltb_spec (length (cb_ai c) - 1) i); [lia|]. unfold ok at 1. cbn [obind]. rewrite map_length, seq_length. destruct (Nat.ltb_spec (length (cb_alphas c)) (length (cb_ai c))); [lia|].
  set (x := map _ _). assert (Lx : length x = length (cb_ai c)) by (unfold x; now rewrite map_length, seq_length). assert (Nx : forall j, (j < length (cb_ai c))%nat -> nth j x 0 = if Nat.eqb j i then 1 else 0).
  { intros j Hj. unfold x. now rewrite nth_seq. }
  assert (PK : forall f, sumn (length (cb_ai c)) (fun j => nth j x 0 * f j) = f i). { intros f. rewrite (sumn_ext _ _ (fun j => if Nat.eqb j i then f j else 0)). 2: { intros j Hj. rewrite Nx by assumption. destruct (Nat.eqb j i); ring. } clear -Hi. induction (length (cb_ai c)) as [|n IH]; [lia|]. cbn [sumn]. destruct (Nat.eqb_spec n i) as [->|D].
    - rewrite (sumn_ext i _ (fun _ => 0)) by (intros j Hj; destruct (Nat.eqb_spec j i); [lia|reflexivity]). clear. assert (Z : sumn i (fun _ => 0) = 0) by (induction i as [|i IH]; [reflexivity|cbn [sumn]; rewrite IH; ring]). rewrite Z. ring.
    - rewrite IH by lia. ring. }
  f_equal.
  - unfold cubic_a. rewrite Lx. rewrite (sumn_ext _ _ (fun j => nth j x 0 * (let aj := nth j (cb_ai c) 0 * alpha_at (cb_alphas c) j T in (1 - cb_k c j i) * sqrt (aj * (nth i (cb_ai c) 0 * alpha_at (cb_alphas c) i T))))).
    + rewrite PK. cbv zeta. rewrite Kii, sqrt_square by assumption. ring.
    + intros j Hj. cbv zeta. rewrite <- (PK (fun m => (1 - cb_k c j m) * sqrt (nth j (cb_ai c) 0 * alpha_at (cb_alphas c) j T * (nth m (cb_ai c) 0 * alpha_at (cb_alphas c) m T)))). rewrite <- sumn_scal. apply sumn_ext. intros m Hm. ring.
  - unfold cubic_b. rewrite Lx. apply PK.
Qed.
Theorem C89_component_missing : forall code c T i, (1 < length (cb_ai c))%nat -> (length (cb_ai c) <= i)%nat -> cubic_superanc code c T None = throws InvalidArgument /\ cubic_superanc code c T (Some i) = throws InvalidArgument.
Proof.
  intros code c T i N Hi. unfold cubic_superanc, chosen. destruct (Nat.ltb_spec 1 (length (cb_ai c))); [|lia]. split; [reflexivity|]. destruct (Nat.ltb_spec (length (cb_ai c) - 1) i); [reflexivity|lia].
Qed.
(** One component: as if it had been asked for, whatever is asked for. *)
Theorem C89_pure : forall code c T o, length (cb_ai c) = 1%nat -> length (cb_alphas c) = 1%nat -> cb_k c 0%nat 0%nat = 0 -> 0 <= nth 0 (cb_ai c) 0 * alpha_at (cb_alphas c) 0 T ->
  cubic_superanc code c T o = densities_at code (cb_R c) T (nth 0 (cb_ai c) 0 * alpha_at (cb_alphas c) 0 T) (nth 0 (cb_bi c) 0).
Proof.
  intros code c T o N L K P. unfold cubic_superanc, chosen. rewrite N. cbn [Nat.ltb Nat.leb repeat]. unfold ok at 1. cbn [obind length]. rewrite L. cbn [Nat.ltb Nat.leb]. f_equal.
  - unfold cubic_a. cbn [length sumn nth]. rewrite K, sqrt_square by assumption. ring.
  - unfold cubic_b. cbn [length sumn nth]. ring.
Qed.
(** A generic cubic without a table gets negative densities instead of an exception. *)
Theorem C89_unknown_refuted : ~ (forall code Rg T a b l v, 0 < a -> 0 < b -> densities_at code Rg T a b = ok (l, v) -> 0 < l).
Proof.
  intros H. specialize (H UNKNOWN_CODE 1 1 1 1 (-1 / 1) (-1 / 1) ltac:(lra) ltac:(lra)). assert (E : densities_at UNKNOWN_CODE 1 1 1 1 = ok (-1 / 1, -1 / 1)). { unfold densities_at, cdiv. destruct (Req_EM_T 1 0); [lra|]. reflexivity. } specialize (H E). lra.
Qed.
(** Propane with the equation of Peng and Robinson *)
Example C89_met : known PR_CODE /\ low PR_CODE <= 8.314 * 300 * 5.6e-5 / 1.3 < near_critical PR_CODE /\ 0 < 1.3 /\ 0 < 5.6e-5.
Proof. split; [unfold known; tauto|]. cbn [low near_critical PR_CODE]. repeat split; lra. Qed.
Print Assumptions C89_expansion.
Print Assumptions C89_cosines.
Print Assumptions C89_constant_refuted.
Print Assumptions C89_lookup.
Print Assumptions C89_inner.
Print Assumptions C89_inner_met.
Print Assumptions C89_tables.
Print Assumptions C89_codes.
Print Assumptions C89_unknown.
Print Assumptions C89_range.
Print Assumptions C89_critical.
Print Assumptions C89_values.
Print Assumptions C89_monotone.
Print Assumptions C89_joints.
Print Assumptions C89_order.
Print Assumptions C89_end_refuted.
Print Assumptions C89_densities.
Print Assumptions C89_component.
Print Assumptions C89_component_missing.
Print Assumptions C89_pure.
Print Assumptions C89_unknown_refuted.
