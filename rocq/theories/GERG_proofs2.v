(** The tables of the GERG models, checked by computation. *)
From Coq Require Import Reals ZArith String List Lia Lra Bool.
From Verif Require Import Json_model Vec_spec Cubic_model Terms_model Ideal_model Util_model Assoc_model Multi_proofs2.
From Verif Require Import GERG_tables GERG_reference GERG_model GERG_spec GERG_proofs.
Import ListNotations.
Local Open Scope R_scope.

(** * The lookups in terms of decimal numbers *)
Definition orelse {A} (a b : option A) : option A := match a with Some _ => a | None => b end.
Definition dinfo04 (f : string) : option (dnum * dnum * dnum) := assoc info04 f.
Definition dinfo08 (f : string) : option (dnum * dnum * dnum) := orelse (assoc info08 f) (assoc info04 f).
Definition dbip (l : list ((string * string) * bip)) (a b : string) : option (bip * bool) :=
  orelse (option_map (fun v => (v, true)) (assoc2 l a b)) (option_map (fun v => (v, false)) (assoc2 l b a)).
Definition dbip08 (a b : string) : option (bip * bool) := orelse (dbip bip08 a b) (dbip bip04 a b).
Definition dF (a b : string) : option dnum := orelse (assoc2 F04 a b) (assoc2 F04 b a).
Definition bip_dir (b : bip * bool) : bipR := if snd b then bip_of (fst b) else bip_back (fst b).
Definition opt_res {A} (o : option A) : res A := match o with Some a => Val a | None => Err StdInvalidArgument end.
Lemma info04_d : forall f, get_info04 f = opt_res (option_map pinfo_of (dinfo04 f)).
Proof. intro f. unfold get_info04, dinfo04. destruct (assoc info04 f); reflexivity. Qed.
Lemma info08_d : forall f, get_info08 f = opt_res (option_map pinfo_of (dinfo08 f)).
Proof. intro f. unfold get_info08, get_info04, dinfo08. destruct (assoc info08 f); [reflexivity|]. destruct (assoc info04 f); reflexivity. Qed.
Lemma bip04_d : forall a b, get_bip04 a b = opt_res (option_map bip_dir (dbip bip04 a b)).
Proof. intros. unfold get_bip04, dbip. destruct (assoc2 bip04 a b); [reflexivity|]. destruct (assoc2 bip04 b a); reflexivity. Qed.
Lemma bip08_d : forall a b, get_bip08 a b = opt_res (option_map bip_dir (dbip08 a b)).
Proof. intros. unfold get_bip08. rewrite bip04_d. unfold dbip08, dbip at 2. destruct (assoc2 bip08 a b); [reflexivity|]. destruct (assoc2 bip08 b a); reflexivity. Qed.
Lemma F_d : forall a b, get_F a b = option_map val (dF a b).
Proof. intros. unfold get_F, dF. destruct (assoc2 F04 a b); [reflexivity|]. destruct (assoc2 F04 b a); reflexivity. Qed.
Record dlib := { e_info : string -> option (dnum * dnum * dnum); e_bip : string -> string -> option (bip * bool); e_pure : string -> res pcoef }.
Definition dlib04 : dlib := {| e_info := dinfo04; e_bip := dbip bip04; e_pure := get_pure04 |}.
Definition dlib08 : dlib := {| e_info := dinfo08; e_bip := dbip08; e_pure := get_pure08 |}.
Record stands (L : glib) (E : dlib) : Prop := {
  st_info : forall f, l_info L f = opt_res (option_map pinfo_of (e_info E f));
  st_bip : forall a b, l_bip L a b = opt_res (option_map bip_dir (e_bip E a b));
  st_pure : forall f, l_pure L f = e_pure E f;
  st_F : forall a b, l_F L a b = get_F a b;
  st_dep : forall a b, l_dep L a b = get_dep a b }.
Lemma stands04 : stands lib04 dlib04.
Proof. split; intros; try reflexivity; [apply info04_d|apply bip04_d]. Qed.
Lemma stands08 : stands lib08 dlib08.
Proof. split; intros; try reflexivity; [apply info08_d|apply bip08_d]. Qed.

(** * Comparisons *)
Definition pterm_eqb (a b : dnum * dnum * nat * nat) : bool :=
  let '(n, t, d, c) := a in let '(n', t', d', c') := b in (dnum_eqb n n' && dnum_eqb t t' && Nat.eqb d d' && Nat.eqb c c')%bool.
Definition dterm_eqb (a b : dnum * dnum * nat * dnum * dnum * dnum * dnum) : bool :=
  let '(n, t, d, e1, e2, e3, e4) := a in let '(n', t', d', f1, f2, f3, f4) := b in
  (dnum_eqb n n' && dnum_eqb t t' && Nat.eqb d d' && dnum_eqb e1 f1 && dnum_eqb e2 f2 && dnum_eqb e3 f3 && dnum_eqb e4 f4)%bool.
Fixpoint list_eqb {A} (eqb : A -> A -> bool) (l l' : list A) : bool :=
  match l, l' with [], [] => true | a :: t, b :: t' => (eqb a b && list_eqb eqb t t')%bool | _, _ => false end.
Lemma list_eqb_eq : forall A (eqb : A -> A -> bool), (forall a b, eqb a b = true -> a = b) -> forall l l', list_eqb eqb l l' = true -> l = l'.
Proof. intros A eqb H. induction l as [|a l IH]; intros [|b l'] E; cbn in E; try discriminate; [reflexivity|]. apply andb_true_iff in E as [E1 E2]. f_equal; auto. Qed.
Lemma pterm_eqb_eq : forall a b, pterm_eqb a b = true -> a = b.
Proof. intros [[[n t] d] c] [[[n' t'] d'] c'] H. unfold pterm_eqb in H. rewrite !andb_true_iff, !dnum_eqb_eq, !Nat.eqb_eq in H. destruct H as [[[-> ->] ->] ->]. reflexivity. Qed.
Lemma dterm_eqb_eq : forall a b, dterm_eqb a b = true -> a = b.
Proof. intros [[[[[[n t] d] e1] e2] e3] e4] [[[[[[n' t'] d'] f1] f2] f3] f4] H. unfold dterm_eqb in H. rewrite !andb_true_iff, !dnum_eqb_eq, !Nat.eqb_eq in H. destruct H as [[[[[[-> ->] ->] ->] ->] ->] ->]. reflexivity. Qed.
(** the same parameters, in the same order or with betas that are 1 *)
Definition is1 (d : dnum) : bool := dnum_eqb d (d_ 1 0).
Definition beta_same (b b' : dnum) (f f' : bool) : bool := (dnum_eqb b b' && (Bool.eqb f f' || is1 b))%bool.
Definition pair_same (p q : bip * bool) : bool :=
  (beta_same (b_V (fst p)) (b_V (fst q)) (snd p) (snd q) && beta_same (b_T (fst p)) (b_T (fst q)) (snd p) (snd q) &&
   dnum_eqb (g_V (fst p)) (g_V (fst q)) && dnum_eqb (g_T (fst p)) (g_T (fst q)))%bool.
Lemma directed_same : forall b b' f f', beta_same b b' f f' = true -> directed b f = directed b' f'.
Proof.
  intros b b' f f' H. unfold beta_same, is1 in H. rewrite andb_true_iff, orb_true_iff, !dnum_eqb_eq in H. destruct H as [<- [H| ->]].
  - apply eqb_prop in H as ->. reflexivity.
  - destruct f, f'; unfold directed; rewrite ?val_1, ?Rinv_1; reflexivity.
Qed.
Definition dpos (d : dnum) : bool := Z.ltb 0 (dm d).
Lemma dpos_val : forall d, dpos d = true -> 0 < val d.
Proof. intros d H. apply Z.ltb_lt in H. unfold val. apply Rmult_lt_0_compat; [now apply IZR_lt|]. apply Rinv_0_lt_compat, pow_lt. lra. Qed.
Definition bip_pos (b : bip) : bool := (dpos (b_V b) && dpos (g_V b) && dpos (b_T b) && dpos (g_T b))%bool.
Definition swap_dir (p : bip * bool) : bip * bool := (fst p, negb (snd p)).
Definition excess_eqb (a b : option (dnum * list (dnum * dnum * nat * dnum * dnum * dnum * dnum))) : bool :=
  match a, b with None, None => true | Some (F, l), Some (F', l') => (dnum_eqb F F' && list_eqb dterm_eqb l l')%bool | _, _ => false end.
Definition none {A} (o : option A) : bool := match o with None => true | Some _ => false end.
Definition check1 (E : dlib) (t : tables) (f : string) : bool :=
  match e_info E f, e_pure E f with
  | Some (rc, Tc, _), Val p => (dnum_eqb rc (t_rhoc t f) && dnum_eqb Tc (t_Tc t f) && dpos rc && dpos Tc && pcoef_ok p && list_eqb pterm_eqb (pterms p) (t_pure t f) &&
      pair_same (t_pair t f f) (unit_bip, true) && none (t_excess t f f) && none (dF f f))%bool
  | _, _ => false
  end.
Definition check2 (E : dlib) (t : tables) (a b : string) : bool :=
  match e_bip E a b with
  | Some p => (pair_same p (t_pair t a b) && pair_same (t_pair t b a) (swap_dir (t_pair t a b)) && bip_pos (fst (t_pair t a b)) && excess_eqb (t_excess t b a) (t_excess t a b) &&
     match dF a b, t_excess t a b with
     | None, None => true
     | Some F, Some (F', l) => (dnum_eqb F F' && match get_dep a b with Val c => dcoef_ok c && list_eqb dterm_eqb (dterms c) l | Err _ => false end)%bool
     | _, _ => false
     end)%bool
  | None => false
  end.
Definition check (E : dlib) (t : tables) (except : string -> string -> bool) (all : list string) : bool :=
  (forallb (check1 E t) all && forallb (fun a => forallb (fun b => String.eqb a b || except a b || check2 E t a b) all) all)%bool.
Lemma directed_pos : forall b f, dpos b = true -> 0 < directed b f.
Proof. intros b [|] H; unfold directed; [|apply Rinv_0_lt_compat]; now apply dpos_val. Qed.
Lemma directed_neg : forall b f, dpos b = true -> directed b (negb f) = / directed b f.
Proof. intros b [|] H; unfold directed, negb; [reflexivity|]. symmetry. apply Rinv_inv. Qed.
Lemma unit_val : forall f, directed (d_ 1 0) f = 1. Proof. intros [|]; unfold directed; rewrite val_1; [reflexivity|apply Rinv_1]. Qed.
Lemma excess_eqb_eq : forall a b, excess_eqb a b = true -> a = b.
Proof. intros [[F l]|] [[F' l']|] H; try discriminate; try reflexivity. cbn in H. apply andb_true_iff in H as [H1 H2]. apply dnum_eqb_eq in H1 as ->. apply (list_eqb_eq _ _ dterm_eqb_eq) in H2 as ->. reflexivity. Qed.
Lemma check_fits : forall L E t except all, stands L E -> check E t except all = true ->
  forall names, incl names all -> (forall a b, In a names -> In b names -> except a b = false) -> fits L (data_of t) names.
Proof.
  intros L E t except all St C names Inc Ex. unfold check in C. apply andb_true_iff in C as [C1 C2]. rewrite forallb_forall in C1, C2.
  assert (K1 : forall f, In f names -> check1 E t f = true) by (intros; apply C1, Inc; assumption).
  assert (K2 : forall a b, In a names -> In b names -> a <> b -> check2 E t a b = true).
  { intros a b Ha Hb N. specialize (C2 a (Inc a Ha)). rewrite forallb_forall in C2. specialize (C2 b (Inc b Hb)). rewrite (Ex a b Ha Hb), orb_false_r, orb_true_iff in C2. destruct C2 as [E'|]; [|assumption]. apply String.eqb_eq in E'. contradiction. }
  assert (Self : forall a, In a names -> let d := data_of t in s_bv d a a = 1 /\ s_gv d a a = 1 /\ s_bT d a a = 1 /\ s_gT d a a = 1).
  { intros a Ha. specialize (K1 a Ha). unfold check1 in K1. destruct (e_info E a) as [[[rc Tc] M]|]; [|discriminate]. destruct (e_pure E a) as [p|]; [|discriminate]. rewrite !andb_true_iff in K1. destruct K1 as (((_ & H) & _) & _). unfold pair_same in H. rewrite !andb_true_iff in H. destruct H as (((H1 & H2) & H3) & H4). apply directed_same in H1, H2. apply dnum_eqb_eq in H3, H4. cbn. rewrite H1, H2, H3, H4. cbn. rewrite val_1. auto. }
  assert (Two : forall a b, In a names -> In b names -> a <> b -> let d := data_of t in 0 < s_bv d a b /\ 0 < s_gv d a b /\ 0 < s_bT d a b /\ 0 < s_gT d a b /\
    s_bv d b a = / s_bv d a b /\ s_gv d b a = s_gv d a b /\ s_bT d b a = / s_bT d a b /\ s_gT d b a = s_gT d a b /\
    t_excess t b a = t_excess t a b /\ l_bip L a b = Val {| bV := s_bv d a b; gV := s_gv d a b; bT := s_bT d a b; gT := s_gT d a b |} /\
    F_of L a b = s_F d a b /\ (s_F d a b <> 0 -> exists c, l_dep L a b = Val c /\ dcoef_ok c = true /\ map dterm_of (dterms c) = s_dep d a b)).
  { intros a b Ha Hb N d. specialize (K2 a b Ha Hb N). unfold check2 in K2. destruct (e_bip E a b) as [p|] eqn:Ep; [|discriminate]. rewrite !andb_true_iff in K2. destruct K2 as ((((H1 & H2) & H3) & H4) & H5).
    unfold pair_same in H1, H2. rewrite !andb_true_iff in H1, H2. destruct H1 as (((H1a & H1b) & H1c) & H1d). destruct H2 as (((H2a & H2b) & H2c) & H2d). apply directed_same in H1a, H1b, H2a, H2b. apply dnum_eqb_eq in H1c, H1d, H2c, H2d. unfold bip_pos in H3. rewrite !andb_true_iff in H3. destruct H3 as (((P1 & P2) & P3) & P4). apply excess_eqb_eq in H4.
    cbn [swap_dir fst snd] in H2a, H2b, H2c, H2d. rewrite directed_neg in H2a, H2b by assumption.
    unfold d. cbn [data_of s_bv s_gv s_bT s_gT]. split; [now apply directed_pos|]. split; [now apply dpos_val|]. split; [now apply directed_pos|]. split; [now apply dpos_val|]. split; [exact H2a|]. split; [now rewrite H2c|]. split; [exact H2b|]. split; [now rewrite H2d|]. split; [exact H4|].
    split; [|split].
    - rewrite (st_bip _ _ St), Ep. cbn [option_map opt_res]. f_equal. rewrite <- H1a, <- H1b, <- H1c, <- H1d. destruct p as [v [|]]; unfold bip_dir, bip_of, bip_back, directed; cbn [fst snd]; [reflexivity|]. f_equal; unfold Rdiv; ring.
    - unfold F_of. rewrite (st_F _ _ St), F_d. unfold d. cbn [data_of s_F]. destruct (dF a b) as [F|]; destruct (t_excess t a b) as [[F' l]|]; try discriminate; [|reflexivity]. apply andb_true_iff in H5 as [H5 _]. apply dnum_eqb_eq in H5 as ->. reflexivity.
    - unfold d. cbn [data_of s_F s_dep]. rewrite (st_dep _ _ St). destruct (dF a b) as [F|]; destruct (t_excess t a b) as [[F' l]|]; try discriminate; [|intro H; contradiction H; reflexivity]. intros _. apply andb_true_iff in H5 as [_ H5]. destruct (get_dep a b) as [c|]; [|discriminate]. apply andb_true_iff in H5 as [H5 H6]. exists c. split; [reflexivity|]. split; [exact H5|]. f_equal. now apply (list_eqb_eq _ _ dterm_eqb_eq). }
  assert (Ex0 : forall a, In a names -> t_excess t a a = None /\ dF a a = None).
  { intros a Ha. specialize (K1 a Ha). unfold check1 in K1. destruct (e_info E a) as [[[rc Tc] M]|]; [|discriminate]. destruct (e_pure E a) as [p|]; [|discriminate]. rewrite !andb_true_iff in K1. destruct K1 as ((_ & H) & H'). destruct (t_excess t a a); [discriminate|]. destruct (dF a a); [discriminate|]. auto. }
  assert (D1 : forall a b, In a names -> In b names -> a = b \/ a <> b) by (intros a b _ _; destruct (string_dec a b); auto).
  split.
  - intros f Hf. specialize (K1 f Hf). unfold check1 in K1. rewrite (st_info _ _ St). destruct (e_info E f) as [[[rc Tc] M]|]; [|discriminate]. destruct (e_pure E f) as [p|]; [|discriminate]. rewrite !andb_true_iff in K1. destruct K1 as ((((((((H1 & H2) & _) & _) & _) & _) & _) & _) & _). apply dnum_eqb_eq in H1, H2. exists (pinfo_of (rc, Tc, M)). cbn. rewrite H1, H2. split; [reflexivity|]. split; [reflexivity|ring].
  - intros f Hf. specialize (K1 f Hf). unfold check1 in K1. destruct (e_info E f) as [[[rc Tc] M]|]; [|discriminate]. destruct (e_pure E f) as [p|]; [|discriminate]. rewrite !andb_true_iff in K1. destruct K1 as ((((((((H1 & H2) & H3) & H4) & _) & _) & _) & _) & _). apply dnum_eqb_eq in H1, H2. subst rc Tc. cbn. split; [now apply dpos_val|]. apply Rmult_lt_0_compat; [lra|now apply dpos_val].
  - intros a b Ha Hb N. apply (Two a b Ha Hb N).
  - intros a b Ha Hb. destruct (D1 a b Ha Hb) as [<-|N]; [destruct (Self a Ha) as (-> & -> & -> & ->); repeat split; lra|]. destruct (Two a b Ha Hb N) as (H1 & H2 & H3 & H4 & _). auto.
  - exact Self.
  - intros a b Ha Hb. destruct (D1 a b Ha Hb) as [<-|N]; [destruct (Self a Ha) as (-> & -> & -> & ->); repeat split; lra|]. destruct (Two a b Ha Hb N) as (_ & _ & _ & _ & H1 & H2 & H3 & H4 & _). auto.
  - intros f Hf. specialize (K1 f Hf). unfold check1 in K1. rewrite (st_pure _ _ St). destruct (e_info E f) as [[[rc Tc] M]|]; [|discriminate]. destruct (e_pure E f) as [p|]; [|discriminate]. rewrite !andb_true_iff in K1. destruct K1 as (((((_ & H1) & H2) & _) & _) & _). exists p. split; [reflexivity|]. split; [exact H1|]. cbn. f_equal. now apply (list_eqb_eq _ _ pterm_eqb_eq).
  - intros a b Ha Hb. destruct (D1 a b Ha Hb) as [<-|N]; [|apply (Two a b Ha Hb N)]. destruct (Ex0 a Ha) as [E1 E2]. unfold F_of. rewrite (st_F _ _ St), F_d. cbn. now rewrite E1, E2.
  - intros a Ha. cbn. now rewrite (proj1 (Ex0 a Ha)).
  - intros a b Ha Hb. destruct (D1 a b Ha Hb) as [<-|N]; [auto|]. destruct (Two a b Ha Hb N) as (_ & _ & _ & _ & _ & _ & _ & _ & H & _). cbn. rewrite H. auto.
  - intros a b Ha Hb. destruct (D1 a b Ha Hb) as [<-|N]; [|apply (Two a b Ha Hb N)]. cbn. rewrite (proj1 (Ex0 a Ha)). intro H. now contradiction H.
Qed.

(** * The checks *)
Definition nothing (a b : string) : bool := false.
Definition butanes (a b : string) : bool := ((String.eqb a "n-butane" && String.eqb b "isobutane") || (String.eqb a "isobutane" && String.eqb b "n-butane"))%bool.
Lemma check04 : check dlib04 tables04 nothing names04 = true. Proof. vm_compute. reflexivity. Qed.
Lemma check08 : check dlib08 tables08 nothing names08 = true. Proof. vm_compute. reflexivity. Qed.
Lemma check_ref : check dlib08 reference butanes names08 = true. Proof. vm_compute. reflexivity. Qed.
