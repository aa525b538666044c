(** C86: the polar contribution of Gray and Gubbins, with polarizable molecules. *)
From Coq Require Import Reals ZArith String List Bool Lia Lra.
From Verif Require Import Json_model Vec_spec Vec_proofs Cubic_model Cubic_spec Cubic_proofs2 Terms_model Ideal_model Ideal_proofs Util_model Assoc_model GERG_tables VRMie_model Polar_tables Polar_model Polar_spec Polar_proofs Polar_proofs2 Polar_proofs3 Properties_Polar Multi_proofs2.
From Coquelicot Require Import Coquelicot.
Import ListNotations.
Local Open Scope R_scope.

(** * Options *)
Definition numbers (l : list R) : json := JArr (map JNum l).
Lemma read_numbers : forall l, j_valarray j_double (numbers l) = Val l.
Proof. intro l. unfold numbers, j_valarray. induction l as [|a l IH]; [reflexivity|]. cbn [map map_res j_double bind]. now rewrite IH. Qed.
(** Without options: the packing fraction, no factors, no polarizability *)
Theorem C86_defaults : forall sigma SG EK mu Q, length mu = length sigma -> length Q = length sigma ->
  make_gray sigma SG EK mu Q (JObj []) = Val {| y_sigma := sigma; y_S := SG; y_E := EK; y_mu := mu; y_Q := Q; y_approach := use_packing_fraction; y_C3 := 1; y_C3b := 1; y_polar := None |}.
Proof. intros sigma SG EK mu Q L1 L2. unfold make_gray. cbn. rewrite L1, L2, Nat.eqb_refl. reflexivity. Qed.
(** All options; the polarizabilities are volumes *)
Definition full_flags (ap : string) (c c' : R) (s a : list R) : json :=
  JObj [("approach", JStr ap); ("C3", JNum c); ("C3b", JNum c'); ("polarizable", JObj [("alpha_symm / m^3", numbers s); ("alpha_asymm / m^3", numbers a)])]%string.
Theorem C86_options : forall sigma SG EK mu Q c c' s a b, length mu = length sigma -> length Q = length sigma -> length s = length sigma -> length a = length sigma ->
  make_gray sigma SG EK mu Q (full_flags (if b : bool then "calculate_Gubbins_rhostar" else "use_packing_fraction")%string c c' s a) =
  Val {| y_sigma := sigma; y_S := SG; y_E := EK; y_mu := mu; y_Q := Q; y_approach := if b then calculate_Gubbins_rhostar else use_packing_fraction; y_C3 := c; y_C3b := c';
         y_polar := Some (map (fun v => v / k_e) s, map (fun v => v / k_e) a) |}.
Proof.
  intros sigma SG EK mu Q c c' s a b L1 L2 L3 L4. unfold make_gray, full_flags.
  cbn -[j_valarray numbers k_e]. rewrite !read_numbers. cbn [bind]. rewrite L1, L2, !map_length, L3, L4, Nat.eqb_refl. cbn [negb orb]. destruct b; reflexivity.
Qed.
(** Arrays of the wrong size are refused *)
Theorem C86_sizes : forall sigma SG EK mu Q flags, length mu <> length sigma \/ length Q <> length sigma -> forall g, make_gray sigma SG EK mu Q flags <> Val g.
Proof.
  intros sigma SG EK mu Q flags H g E. unfold make_gray in E. destruct (get_approach flags); [|discriminate]. cbn [bind] in E. destruct (get_number flags "C3"); [|discriminate]. cbn [bind] in E. destruct (get_number flags "C3b"); [|discriminate]. cbn [bind] in E. destruct (get_polarizable flags); [|discriminate]. cbn [bind] in E.
  destruct (Nat.eqb (length sigma) (length mu)) eqn:E1; cbn [negb] in E; [|discriminate]. destruct (Nat.eqb (length sigma) (length Q)) eqn:E2; cbn [negb] in E; [|discriminate]. apply Nat.eqb_eq in E1, E2. destruct H; congruence.
Qed.
Theorem C86_sizes_polarizable : forall sigma SG EK mu Q ap c c' s a, length s <> length sigma \/ length a <> length sigma ->
  make_gray sigma SG EK mu Q (full_flags ap c c' s a) = Err InvalidArgument.
Proof.
  intros sigma SG EK mu Q ap c c' s a H. unfold make_gray, full_flags. cbn -[j_valarray numbers k_e]. rewrite !read_numbers. cbn [bind]. rewrite !map_length.
  destruct (Nat.eqb (length sigma) (length mu)); cbn [negb]; [|reflexivity]. destruct (Nat.eqb (length sigma) (length Q)); cbn [negb]; [|reflexivity].
  destruct H as [H|H]; apply Nat.eqb_neq in H; rewrite H; cbn [negb orb]; [reflexivity|]. now rewrite orb_true_r.
Qed.
(** An unknown name of an approach is accepted by the constructor; the reduced density then throws *)
Theorem C86_approach : forall sigma SG EK mu Q ap g rhoN eta x, (ap <> "calculate_Gubbins_rhostar")%string -> (ap <> "use_packing_fraction")%string ->
  make_gray sigma SG EK mu Q (JObj [("approach", JStr ap)]%string) = Val g -> get_rhostar (y_approach g) (y_sigma g) rhoN eta x = throws InvalidArgument.
Proof.
  intros sigma SG EK mu Q ap g rhoN eta x N1 N2 E. unfold make_gray in E. cbn -[String.eqb] in E.
  replace (if String.eqb "approach" "approach" then Some (JStr ap) else None) with (Some (JStr ap)) in E by reflexivity. cbn -[String.eqb] in E. apply String.eqb_neq in N1, N2. rewrite N1, N2 in E.
  destruct (negb _); [discriminate|]. destruct (negb _); [discriminate|]. injection E as <-. reflexivity.
Qed.

(** * Orders *)
Definition sound (g : gray) (N : nat) (SG EK : nat -> nat -> R) : Prop :=
  (N <= length (y_sigma g))%nat /\ (forall i j, (i < N)%nat -> (j < N)%nat -> y_S g i j = Some (SG i j) /\ 0 < SG i j) /\ (forall i j, (i < N)%nat -> (j < N)%nat -> y_E g i j = Some (EK i j) /\ 0 < EK i j).
Definition with_volumes (g : gray) (p : option (list R * list R)) : Prop :=
  y_polar g = match p with Some (s, a) => Some (map (fun v => v / k_e) s, map (fun v => v / k_e) a) | None => None end.
Definition second_SI (g : gray) (mu : list R) (p : option (list R * list R)) (T rhoN : R) (x : list R) (SG : nat -> nat -> R) (Jv : nat -> nat -> nat -> R) : R :=
  order2 (length x) (fun i => nth i x 0) (dipole_SI mu T) (quadrupole_SI (y_Q g) T) (mean_polarizability p) SG Jv rhoN.
Definition third_SI (g : gray) (mu : list R) (p : option (list R * list R)) (T rhoN : R) (x : list R) (SG : nat -> nat -> R) (Jv : nat -> nat -> nat -> R) (V : nat * nat -> nat -> nat -> R) : R :=
  order3 (length x) (fun i => nth i x 0) (dipole_SI mu T) (quadrupole_SI (y_Q g) T) (mean_polarizability p) (anisotropy p) SG Jv (triplet V) rhoN (y_C3 g) (y_C3b g).
Lemma nth_map0 : forall f (l : list R) i, f 0 = 0 -> nth i (map f l) 0 = f (nth i l 0). Proof. intros f l i H. rewrite <- H at 1. apply map_nth. Qed.
Lemma al_eq : forall g p i, with_volumes g p -> gg_al g i = mean_polarizability p i.
Proof. intros g p i W. unfold gg_al, gg_iso, mean_polarizability. rewrite W. pose proof k_e_pos. destruct p as [[s a]|]; [|ring]. rewrite !nth_map0 by (unfold Rdiv; ring). field. lra. Qed.
Lemma ga_eq : forall g p i, with_volumes g p -> gg_ga g i = anisotropy p i.
Proof. intros g p i W. unfold gg_ga, gg_gamma, anisotropy. rewrite W. pose proof k_e_pos. destruct p as [[s a]|]; [|ring]. rewrite !nth_map0 by (unfold Rdiv; ring). field. lra. Qed.
Lemma a_eq : forall T mu i, 0 < T -> gg_a T mu i = dipole_SI mu T i.
Proof. intros T mu i HT. unfold gg_a, dipole_SI. rewrite <- k_e_coulomb, <- k_B_boltzmann. unfold Rdiv. ring. Qed.
Lemma q_eq : forall g T i, gg_q g T i = quadrupole_SI (y_Q g) T i.
Proof. intros g T i. unfold gg_q, gg_s, quadrupole_SI. now rewrite <- k_e_coulomb, <- k_B_boltzmann. Qed.
Lemma order2_ext : forall N x a a' q q' al al' S Jv rho, (forall i, a i = a' i) -> (forall i, q i = q' i) -> (forall i, al i = al' i) -> order2 N x a q al S Jv rho = order2 N x a' q' al' S Jv rho.
Proof. intros N x a a' q q' al al' S Jv rho A Q L. unfold order2. f_equal. apply sum2_ext. intros i j _ _. unfold zz. now rewrite !A, !Q, !L. Qed.
Lemma order3_ext : forall N x a a' q q' al al' ga ga' S Jv V rho c c', (forall i, a i = a' i) -> (forall i, q i = q' i) -> (forall i, al i = al' i) -> (forall i, ga i = ga' i) -> order3 N x a q al ga S Jv V rho c c' = order3 N x a' q' al' ga' S Jv V rho c c'.
Proof. intros N x a a' q q' al al' ga ga' S Jv V rho c c' A Q L G. unfold order3. f_equal. f_equal; f_equal; [apply sum2_ext; intros i j _ _|apply sum3_ext; intros i j k _ _ _]; unfold zz; now rewrite ?A, ?Q, ?L, ?G. Qed.
(** The terms of second and third order, for every set of effective dipoles *)
Theorem C86_orders : forall J K g T rhoN rs x mu p SG EK Jv V, 0 < T -> sound g (length x) SG EK -> with_volumes g p ->
  J_at J (length x) (fun i j => T / EK i j) rs Jv -> K_at K (length x) (fun i j => T / EK i j) rs V ->
  gg_alpha2 J g T rhoN rs x mu = Some (second_SI g mu p T rhoN x SG Jv) /\ gg_alpha3 J K g T rhoN rs x mu = Some (third_SI g mu p T rhoN x SG Jv V).
Proof.
  intros J K g T rhoN rs x mu p SG EK Jv V HT (L & HS & HE) W HJ HK.
  rewrite (gg_alpha2_val J g T rhoN rs x mu SG EK Jv HT HS HE HJ), (gg_alpha3_val J K g T rhoN rs x mu SG EK Jv V HT HS HE HJ HK). unfold second_SI, third_SI. split; f_equal.
  - apply order2_ext; [intro; now apply a_eq|intro; apply q_eq|intro; now apply al_eq].
  - apply order3_ext; [intro; now apply a_eq|intro; apply q_eq|intro; now apply al_eq|intro; now apply ga_eq].
Qed.
(** Molecules that are not polarizable: the Pade approximant, zero when the second order is *)
Theorem C86_formula : forall J K g T rhoN rs x SG EK Jv V, 0 < T -> sound g (length x) SG EK -> y_polar g = None ->
  J_at J (length x) (fun i j => T / EK i j) rs Jv -> K_at K (length x) (fun i j => T / EK i j) rs V -> (exists i, nth i (y_mu g) 0 <> 0 \/ nth i (y_Q g) 0 <> 0) ->
  let a2 := second_SI g (y_mu g) None T rhoN x SG Jv in let a3 := third_SI g (y_mu g) None T rhoN x SG Jv V in
  (a2 <> 0 -> a3 <> a2 -> gg_eval J K g T rhoN rs x = ok {| r_alpha2 := a2; r_alpha3 := a3; r_alpha := pade a2 a3 |}) /\
  (a2 = 0 -> gg_eval J K g T rhoN rs x = ok {| r_alpha2 := 0; r_alpha3 := a3; r_alpha := 0 |}).
Proof.
  intros J K g T rhoN rs x SG EK Jv V HT HG W HJ HK [i Hi] a2 a3.
  destruct (C86_orders J K g T rhoN rs x (y_mu g) None SG EK Jv V HT HG W HJ HK) as [E2 E3]. fold a2 in E2. fold a3 in E3.
  unfold gg_eval. rewrite W. destruct HG as (L & _ & _). apply Nat.ltb_ge in L. rewrite L.
  assert (H : has_polar (y_Q g) (y_mu g) = true). { destruct (has_polar _ _) eqn:H; [reflexivity|]. apply has_polar_false in H. destruct H as [H1 H2]. rewrite (zero_nth _ i H1), (zero_nth _ i H2) in Hi. exfalso; destruct Hi; lra. }
  rewrite H, E2, E3. cbn [opt_bind]. split.
  - intros N2 N3. destruct (Req_EM_T a2 0) as [Z|_]; [contradiction|]. rewrite cdiv_nz by exact N2. cbn [opt_bind].
    rewrite cdiv_nz; [reflexivity|]. intro Z. apply N3. assert (Q : a3 / a2 = 1) by lra. rewrite <- (Rmult_1_l a2), <- Q. field. exact N2.
  - intro Z. destruct (Req_EM_T a2 0) as [_|N]; [reflexivity|contradiction].
Qed.
Theorem C86_nonpolar : forall J K g T rhoN rs x, (length x <= length (y_sigma g))%nat -> y_polar g = None -> (forall i, nth i (y_mu g) 0 = 0) -> (forall i, nth i (y_Q g) 0 = 0) ->
  gg_eval J K g T rhoN rs x = ok {| r_alpha2 := 0; r_alpha3 := 0; r_alpha := 0 |}.
Proof.
  intros J K g T rhoN rs x L W M Q. unfold gg_eval. rewrite W. apply Nat.ltb_ge in L. rewrite L.
  assert (H : has_polar (y_Q g) (y_mu g) = false) by (apply has_polar_false; split; apply Forall_forall; intros v I; apply (In_nth _ _ 0) in I; destruct I as (i & _ & <-); auto). now rewrite H.
Qed.
(** zero density: no contribution, unlike that of Gubbins and Twu *)
Theorem C86_vacuum : forall J K g T rs x SG EK Jv V, 0 < T -> sound g (length x) SG EK -> y_polar g = None ->
  J_at J (length x) (fun i j => T / EK i j) rs Jv -> K_at K (length x) (fun i j => T / EK i j) rs V -> gg_eval J K g T 0 rs x = ok {| r_alpha2 := 0; r_alpha3 := 0; r_alpha := 0 |}.
Proof.
  intros J K g T rs x SG EK Jv V HT HG W HJ HK. destruct (has_polar (y_Q g) (y_mu g)) eqn:H.
  - destruct (C86_orders J K g T 0 rs x (y_mu g) None SG EK Jv V HT HG W HJ HK) as [E2 E3]. unfold gg_eval. rewrite W. destruct HG as (L & _ & _). apply Nat.ltb_ge in L. rewrite L, H, E2, E3. cbn [opt_bind].
    destruct (Req_EM_T _ 0) as [_|N]; [|exfalso; apply N; unfold second_SI, order2; ring]. unfold fin. cbn. unfold ok. do 2 f_equal. unfold third_SI, order3. f_equal. ring.
  - unfold gg_eval. rewrite W. destruct HG as (L & _ & _). apply Nat.ltb_ge in L. now rewrite L, H.
Qed.
(** With the integrals of Gubbins and Twu and factors that are not negative: attractive and finite at
    every temperature and density.  Quadrupoles of one sign *)
Theorem C86_attractive : forall g T rhoN rs x SG EK, 0 < T -> 0 < rhoN -> sound g (length x) SG EK -> y_polar g = None -> 0 <= y_C3 g -> 0 <= y_C3b g ->
  (forall i, (i < length x)%nat -> 0 <= nth i x 0) -> (forall i, (i < length x)%nat -> 0 <= nth i (y_Q g) 0) -> (exists i, (i < length x)%nat /\ 0 < nth i x 0 /\ (nth i (y_mu g) 0 <> 0 \/ nth i (y_Q g) 0 <> 0)) ->
  exists t, gg_eval (the_J GubbinsTwu) (the_K GubbinsTwu) g T rhoN rs x = ok t /\ r_alpha2 t < 0 /\ 0 <= r_alpha3 t /\ r_alpha2 t <= r_alpha t < 0.
Proof.
  intros g T rhoN rs x SG EK HT Hr HG W C3 C3b Hx HQ (i & Hi & Xi & Mi). pose proof HG as (L & HS & HE).
  assert (Tp : forall i j, (i < length x)%nat -> (j < length x)%nat -> 0 < T / EK i j) by (intros; apply Rdiv_lt_0_compat; [exact HT|now apply HE]).
  pose proof (twu_J_at (length x) (fun i j => T / EK i j) rs Tp) as HJ. pose proof (twu_K_at (length x) (fun i j => T / EK i j) rs Tp) as HK.
  destruct (C86_formula _ _ g T rhoN rs x SG EK _ _ HT HG W HJ HK) as [F _]; [exists i; exact Mi|]. cbv zeta in F.
  set (a2 := second_SI _ _ _ _ _ _ _ _) in F. set (a3 := third_SI _ _ _ _ _ _ _ _ _) in F.
  assert (Kp : 0 < coulomb / (boltzmann * T)) by (rewrite <- k_e_coulomb, <- k_B_boltzmann; apply Rdiv_lt_0_compat; [exact k_e_pos|apply Rmult_lt_0_compat; [exact k_B_pos|exact HT]]).
  assert (Jp : forall n i j, In n pair_orders -> (i < length x)%nat -> (j < length x)%nat -> 0 < twu_pair n (T / EK i j) rs) by (intros; apply twu_pair_val; auto).
  assert (Dp : forall i, dipole_SI (y_mu g) T i = coulomb / (boltzmann * T) * nth i (y_mu g) 0 ^ 2) by (intro; unfold dipole_SI, Rdiv; ring).
  assert (N2 : a2 < 0). { unfold a2, second_SI. apply (order2_neg _ _ _ _ _ _ _ (fun k i j => 0) rhoN) with (i := i); auto.
    - intros k Hk. rewrite Dp. apply Rmult_le_pos; [lra|apply pow2_ge_0].
    - intros k Hk. cbn. lra.
    - intros k l Hk Hl. now apply HS.
    - destruct Mi as [M|M]; [left|right].
      + rewrite Dp. apply Rmult_lt_0_compat; [exact Kp|]. rewrite <- Rsqr_pow2. now apply Rsqr_pos_lt.
      + unfold quadrupole_SI. apply Rmult_integral_contrapositive. split; [apply Rgt_not_eq; now apply sqrt_lt_R0|exact M]. }
  assert (N3 : 0 <= a3). { unfold a3, third_SI. apply order3_nn; auto; try lra.
    - intros k Hk. rewrite Dp. apply Rmult_le_pos; [lra|apply pow2_ge_0].
    - intros k Hk. cbn. lra.
    - intros k l Hk Hl. now apply HS.
    - intros k Hk. unfold quadrupole_SI. apply Rmult_le_pos; [apply sqrt_pos|now apply HQ]. }
  eexists. split; [apply F; lra|]. cbn [r_alpha2 r_alpha3 r_alpha]. split; [exact N2|]. split; [exact N3|]. now apply pade_between.
Qed.
(** Both contributions agree: moments in SI units against reduced moments *)
Theorem C86_agree : forall J K sigma eps mu Q mu2 Q2 ap g t T rhoN rs x Jv V,
  let N := length x in
  make_gray sigma (fun i j => Some (mean_diameter sigma i j)) (fun i j => Some (sqrt (nth i eps 0 * nth j eps 0))) mu Q (JObj []) = Val g ->
  make_gtwu sigma eps mu2 Q2 ap = ok t ->
  0 < T -> (N <= length sigma)%nat -> (forall i, (i < N)%nat -> 0 < nth i sigma 0 /\ 0 < nth i eps 0 /\ 0 <= nth i Q 0) ->
  (forall i, (i < N)%nat -> nth i mu2 0 = coulomb * nth i mu 0 ^ 2 / (boltzmann * nth i eps 0 * nth i sigma 0 ^ 3)) ->
  (forall i, (i < N)%nat -> nth i Q2 0 = coulomb * nth i Q 0 ^ 2 / (boltzmann * nth i eps 0 * nth i sigma 0 ^ 5)) ->
  J_at J N (reduced_T T eps) rs Jv -> K_at K N (reduced_T T eps) rs V ->
  gg_alpha2 J g T rhoN rs x mu = gt_alpha2 J t T rhoN rs x /\ gg_alpha3 J K g T rhoN rs x mu = gt_alpha3 J K t T rhoN rs x.
Proof.
  intros J K sigma eps mu Q mu2 Q2 ap g t T rhoN rs x Jv V N Eg Et HT LN P M2 QQ HJ HK.
  assert (Hg : g = {| y_sigma := sigma; y_S := fun i j => Some (mean_diameter sigma i j); y_E := fun i j => Some (sqrt (nth i eps 0 * nth j eps 0)); y_mu := mu; y_Q := Q; y_approach := use_packing_fraction; y_C3 := 1; y_C3b := 1; y_polar := None |}).
  { unfold make_gray in Eg. cbn in Eg. destruct (negb _); [discriminate|]. destruct (negb _); [discriminate|]. injection Eg as <-. reflexivity. }
  assert (Ht : t = {| t_sigma := sigma; t_eps := eps; t_mu2 := mu2; t_Q2 := Q2; t_approach := ap |}).
  { unfold make_gtwu in Et. destruct (negb _); [discriminate|]. destruct (negb _); [discriminate|]. destruct (Nat.ltb _ _); [discriminate|]. injection Et as <-. reflexivity. }
  subst g t. set (g := {| y_sigma := sigma |}). set (t := {| t_sigma := sigma |}).
  assert (Bp : 0 < boltzmann) by (rewrite <- k_B_boltzmann; exact k_B_pos). assert (Cp : 0 < coulomb) by (rewrite <- k_e_coulomb; exact k_e_pos).
  assert (Pt : proper t N). { split; [exact LN|]. intros i Hi. cbn [t t_sigma t_eps t_mu2 t_Q2]. destruct (P i Hi) as (P1 & P2 & P3). repeat split; try assumption.
    - rewrite M2 by exact Hi. apply div_nn; [apply Rmult_le_pos; [lra|apply pow2_ge_0]|]. apply Rmult_lt_0_compat; [now apply Rmult_lt_0_compat|now apply pow_lt].
    - rewrite QQ by exact Hi. apply div_nn; [apply Rmult_le_pos; [lra|apply pow2_ge_0]|]. apply Rmult_lt_0_compat; [now apply Rmult_lt_0_compat|now apply pow_lt]. }
  assert (Sg : sound g N (mean_diameter sigma) (fun i j => sqrt (nth i eps 0 * nth j eps 0))). { split; [exact LN|]. split; intros i j Hi Hj; (split; [reflexivity|]); destruct (P i Hi) as (P1 & P2 & P3); destruct (P j Hj) as (P4 & P5 & P6); [unfold mean_diameter; lra|apply sqrt_lt_R0; now apply Rmult_lt_0_compat]. }
  destruct (C86_orders J K g T rhoN rs x mu None (mean_diameter sigma) (fun i j => sqrt (nth i eps 0 * nth j eps 0)) Jv V HT Sg eq_refl HJ HK) as [-> ->].
  destruct (C85_formula J K t T rhoN rs x Jv V HT Pt HJ HK) as (-> & -> & _).
  assert (Da : forall i, (i < N)%nat -> dipole_SI mu T i = dipole sigma eps mu2 T i). { intros i Hi. destruct (P i Hi) as (P1 & P2 & P3). unfold dipole_SI, dipole. rewrite M2 by exact Hi. field. repeat split; lra. }
  assert (Dq : forall i, (i < N)%nat -> quadrupole_SI Q T i = quadrupole sigma eps Q2 T i). { intros i Hi. destruct (P i Hi) as (P1 & P2 & P3). unfold quadrupole_SI, quadrupole. rewrite QQ by exact Hi.
    replace (nth i sigma 0 ^ 5 * (coulomb * nth i Q 0 ^ 2 / (boltzmann * nth i eps 0 * nth i sigma 0 ^ 5)) * (nth i eps 0 / T)) with (coulomb / (boltzmann * T) * nth i Q 0 ^ 2) by (field; repeat split; lra).
    rewrite sqrt_mult; [|apply Rlt_le, Rdiv_lt_0_compat; [lra|now apply Rmult_lt_0_compat]|apply pow2_ge_0]. rewrite <- Rsqr_pow2, sqrt_Rsqr by exact P3. reflexivity. }
  split; f_equal.
  - unfold second_SI, second, order2. f_equal. apply sum2_ext. intros i j Hi Hj. unfold zz. cbn [g t y_Q t_sigma t_eps t_mu2 t_Q2]. rewrite !Da, !Dq by assumption. reflexivity.
  - unfold third_SI, third, order3. cbn [g y_C3 y_C3b]. f_equal. f_equal; f_equal; [apply sum2_ext; intros i j Hi Hj|apply sum3_ext; intros i j k Hi Hj Hk]; unfold zz; cbn [g t y_Q t_sigma t_eps t_mu2 t_Q2]; rewrite !Da, !Dq by assumption; reflexivity.
Qed.
(** * Components: order, splitting and absent components do not matter *)
Definition pick_gray (r : list nat) (g : gray) : gray :=
  {| y_sigma := pick 0 r (y_sigma g); y_S := fun i j => y_S g (nth i r O) (nth j r O); y_E := fun i j => y_E g (nth i r O) (nth j r O); y_mu := pick 0 r (y_mu g); y_Q := pick 0 r (y_Q g);
     y_approach := y_approach g; y_C3 := y_C3 g; y_C3b := y_C3b g; y_polar := match y_polar g with Some (s, a) => Some (pick 0 r s, pick 0 r a) | None => None end |}.
Lemma pick_orders : forall r x' x g mu T rhoN SG Jv V, lumped r x' x -> y_polar g = None ->
  second_SI (pick_gray r g) (pick 0 r mu) None T rhoN x' (fun i j => SG (nth i r O) (nth j r O)) (fun n i j => Jv n (nth i r O) (nth j r O)) = second_SI g mu None T rhoN x SG Jv /\
  third_SI (pick_gray r g) (pick 0 r mu) None T rhoN x' (fun i j => SG (nth i r O) (nth j r O)) (fun n i j => Jv n (nth i r O) (nth j r O)) (fun k i j => V k (nth i r O) (nth j r O)) = third_SI g mu None T rhoN x SG Jv V.
Proof.
  intros r x' x g mu T rhoN SG Jv V HL W.
  assert (D1 : forall i, (i < length r)%nat -> dipole_SI (pick 0 r mu) T i = dipole_SI mu T (nth i r O)) by (intros i Hi; unfold dipole_SI; now rewrite !nth_pick by assumption).
  assert (D2 : forall i, (i < length r)%nat -> quadrupole_SI (y_Q (pick_gray r g)) T i = quadrupole_SI (y_Q g) T (nth i r O)) by (intros i Hi; unfold quadrupole_SI; cbn [pick_gray y_Q]; now rewrite !nth_pick by assumption).
  split.
  - unfold second_SI, order2. f_equal. apply (lump2 r x' x); [exact HL|]. intros i j Hi Hj. unfold zz, mean_polarizability. rewrite !D1, !D2 by assumption. reflexivity.
  - unfold third_SI, order3. cbn [pick_gray y_C3 y_C3b]. f_equal. f_equal; f_equal.
    + apply (lump2 r x' x); [exact HL|]. intros i j Hi Hj. unfold anisotropy. rewrite !D1, !D2 by assumption. reflexivity.
    + apply (lump3 r x' x); [exact HL|]. intros i j k Hi Hj Hk. unfold zz, mean_polarizability, triplet. rewrite !D1, !D2 by assumption. reflexivity.
Qed.
Theorem C86_components : forall J K r x' x g T rhoN rs SG EK Jv V t, lumped r x' x -> 0 < T -> sound g (length x) SG EK -> y_polar g = None ->
  J_at J (length x) (fun i j => T / EK i j) rs Jv -> K_at K (length x) (fun i j => T / EK i j) rs V ->
  second_SI g (y_mu g) None T rhoN x SG Jv <> 0 -> gg_eval J K g T rhoN rs x = ok t -> gg_eval J K (pick_gray r g) T rhoN rs x' = ok t.
Proof.
  intros J K r x' x g T rhoN rs SG EK Jv V t HL HT HG W HJ HK N2 E. pose proof HL as (Lr & HI & _). pose proof (fun i => lumped_lt r x' x i HL) as LT. pose proof HG as (L & HS & HE).
  destruct (pick_orders r x' x g (y_mu g) T rhoN SG Jv V HL W) as [P2 P3].
  assert (HG' : sound (pick_gray r g) (length x') (fun i j => SG (nth i r O) (nth j r O)) (fun i j => EK (nth i r O) (nth j r O))).
  { split; [cbn [pick_gray y_sigma]; unfold pick; rewrite map_length; lia|]. split; intros i j Hi Hj; [apply HS|apply HE]; apply LT; lia. }
  assert (W' : y_polar (pick_gray r g) = None) by (cbn [pick_gray y_polar]; now rewrite W).
  assert (HJ' : J_at J (length x') (fun i j => T / EK (nth i r O) (nth j r O)) rs (fun n i j => Jv n (nth i r O) (nth j r O))) by (intros n i j Hn Hi Hj; apply HJ; [exact Hn|apply LT; lia|apply LT; lia]).
  assert (HK' : K_at K (length x') (fun i j => T / EK (nth i r O) (nth j r O)) rs (fun n i j => V n (nth i r O) (nth j r O))) by (intros n i j Hn Hi Hj; apply HK; [exact Hn|apply LT; lia|apply LT; lia]).
  destruct (C86_orders J K g T rhoN rs x (y_mu g) None SG EK Jv V HT HG W HJ HK) as [E2 E3].
  destruct (C86_orders J K (pick_gray r g) T rhoN rs x' (pick 0 r (y_mu g)) None _ _ _ _ HT HG' W' HJ' HK') as [E2' E3']. rewrite P2 in E2'. rewrite P3 in E3'.
  assert (Hp : forall N g mu SG Jv x, second_SI g mu None T rhoN x SG Jv <> 0 -> N = length x -> has_polar (y_Q g) mu = true).
  { intros N g0 mu0 SG0 Jv0 x0 Hn _. destruct (has_polar (y_Q g0) mu0) eqn:H; [reflexivity|]. exfalso. apply Hn. apply has_polar_false in H. destruct H as [H1 H2]. unfold second_SI, order2. replace (sum2 _ _ _) with 0; [ring|]. symmetry. unfold sum2. apply sumn_0. intros i Hi. apply sumn_0. intros j Hj.
    unfold zz, dipole_SI, quadrupole_SI, mean_polarizability. rewrite (zero_nth _ i H1), (zero_nth _ i H2), (zero_nth _ j H1), (zero_nth _ j H2). unfold Rdiv. ring. }
  assert (H1 : has_polar (y_Q g) (y_mu g) = true) by (exact (Hp _ g (y_mu g) SG Jv x N2 eq_refl)).
  assert (H2 : has_polar (y_Q (pick_gray r g)) (y_mu (pick_gray r g)) = true) by (rewrite <- P2 in N2; exact (Hp _ _ _ _ _ _ N2 eq_refl)).
  revert E. unfold gg_eval. rewrite W, W'. destruct HG' as (L' & _ & _). apply Nat.ltb_ge in L, L'. rewrite L, L', H1, H2. change (y_mu (pick_gray r g)) with (pick 0 r (y_mu g)). rewrite E2, E3, E2', E3'. auto.
Qed.

(** * Polarizable molecules *)
(** Zero polarizabilities are none *)
Lemma osequence_val : forall n (f : nat -> option R) (h : nat -> R), (forall i, (i < n)%nat -> f i = Some (h i)) -> forall k, (k <= n)%nat -> osequence (map f (seq (n - k) k)) = Some (map h (seq (n - k) k)).
Proof.
  intros n f h H k. induction k as [|k IH]; intro Hk; [reflexivity|]. cbn [seq map osequence]. rewrite H by lia. cbn [opt_bind]. replace (S (n - S k)) with (n - k)%nat by lia. rewrite IH by lia. reflexivity.
Qed.
Lemma osequence_all : forall n (f : nat -> option R) (h : nat -> R), (forall i, (i < n)%nat -> f i = Some (h i)) -> osequence (map f (seq 0 n)) = Some (map h (seq 0 n)).
Proof. intros n f h H. pose proof (osequence_val n f h H n (le_n n)) as E. now rewrite Nat.sub_diag in E. Qed.
Definition field_of (T a2 a3 d2 d3 : R) : R := - k_B * T * (((1 - 2 * a3 / a2) * d2 + d3) / POW2 (1 - a3 / a2)).
Lemma Eprime_val : forall J K g T rhoN rs x mp p SG EK Jv V, 0 < T -> sound g (length x) SG EK -> with_volumes g p -> p <> None ->
  J_at J (length x) (fun i j => T / EK i j) rs Jv -> K_at K (length x) (fun i j => T / EK i j) rs V ->
  let a2 := second_SI g mp p T rhoN x SG Jv in let a3 := third_SI g mp p T rhoN x SG Jv V in a2 <> 0 -> a3 <> a2 ->
  exists d2 d3, (forall i, (i < length x)%nat -> gg_grad2 J g T rhoN rs x mp i = Some (d2 i) /\ gg_grad3 J K g T rhoN rs x mp i = Some (d3 i)) /\
    gg_Eprime J K g T rhoN rs x mp = ok (map (fun i => field_of T a2 a3 (d2 i) (d3 i)) (seq 0 (length x))).
Proof.
  intros J K g T rhoN rs x mp p SG EK Jv V HT HG W Np HJ HK a2 a3 N2 N3. pose proof HG as (L & HS & HE).
  destruct (C86_orders J K g T rhoN rs x mp p SG EK Jv V HT HG W HJ HK) as [E2 E3]. fold a2 in E2. fold a3 in E3.
  set (d2 := fun i => match gg_grad2 J g T rhoN rs x mp i with Some v => v | None => 0 end). set (d3 := fun i => match gg_grad3 J K g T rhoN rs x mp i with Some v => v | None => 0 end).
  assert (D : forall i, (i < length x)%nat -> gg_grad2 J g T rhoN rs x mp i = Some (d2 i) /\ gg_grad3 J K g T rhoN rs x mp i = Some (d3 i)).
  { intros i Hi. unfold d2, d3. rewrite (grad2_val J g T rhoN rs x mp SG EK Jv HT HS HE HJ i Hi), (grad3_val J K g T rhoN rs x mp SG EK Jv V HT HS HE HJ HK i Hi). split; reflexivity. }
  exists d2, d3. split; [exact D|].
  unfold gg_Eprime. rewrite W. destruct p as [[s a]|]; [|contradiction]. rewrite E2, E3. cbn [opt_bind]. rewrite cdiv_nz by exact N2. cbn [opt_bind].
  assert (Q : 1 - a3 / a2 <> 0). { intro Z. apply N3. assert (Q : a3 / a2 = 1) by lra. rewrite <- (Rmult_1_l a2), <- Q. field. exact N2. }
  rewrite (osequence_all (length x) _ (fun i => field_of T a2 a3 (d2 i) (d3 i))); [reflexivity|]. intros i Hi. destruct (D i Hi) as [-> ->]. cbn [opt_bind]. rewrite cdiv_nz by (unfold POW2; now apply Rmult_integral_contrapositive). reflexivity.
Qed.
Definition with_polarizabilities (g : gray) (p : option (list R * list R)) : gray :=
  {| y_sigma := y_sigma g; y_S := y_S g; y_E := y_E g; y_mu := y_mu g; y_Q := y_Q g; y_approach := y_approach g; y_C3 := y_C3 g; y_C3b := y_C3b g; y_polar := p |}.
Theorem C86_zero_polarizability : forall J K g T rhoN rs x SG EK Jv V, 0 < T -> sound g (length x) SG EK -> length (y_sigma g) = length x -> length (y_mu g) = length x ->
  J_at J (length x) (fun i j => T / EK i j) rs Jv -> K_at K (length x) (fun i j => T / EK i j) rs V ->
  let a2 := second_SI g (y_mu g) None T rhoN x SG Jv in let a3 := third_SI g (y_mu g) None T rhoN x SG Jv V in a2 <> 0 -> a3 <> a2 ->
  gg_eval J K (with_polarizabilities g (Some (repeat 0 (length x), repeat 0 (length x)))) T rhoN rs x = ok {| r_alpha2 := a2; r_alpha3 := a3; r_alpha := pade a2 a3 |} /\
  gg_eval J K (with_polarizabilities g None) T rhoN rs x = ok {| r_alpha2 := a2; r_alpha3 := a3; r_alpha := pade a2 a3 |}.
Proof.
  intros J K g T rhoN rs x SG EK Jv V HT HG Ls Lm HJ HK a2 a3 N2 N3. set (N := length x) in *.
  assert (R0 : forall n i, nth i (repeat 0 n) 0 = 0) by (intros n; induction n; intros [|i]; cbn; auto).
  set (g0 := with_polarizabilities g (Some (repeat 0 N, repeat 0 N))). set (gn := with_polarizabilities g None).
  assert (W0 : with_volumes g0 (Some (repeat 0 N, repeat 0 N))) by (unfold with_volumes; cbn; assert (Z : map (fun v => v / k_e) (repeat 0 N) = repeat 0 N) by (clear; induction N; [reflexivity|]; cbn; rewrite IHN; f_equal; unfold Rdiv; ring); now rewrite Z).
  assert (E2 : second_SI g0 (y_mu g) (Some (repeat 0 N, repeat 0 N)) T rhoN x SG Jv = a2). { unfold a2, second_SI. apply order2_ext; try reflexivity. intro i. cbn [mean_polarizability]. rewrite !R0. unfold Rdiv. ring. }
  assert (E3 : third_SI g0 (y_mu g) (Some (repeat 0 N, repeat 0 N)) T rhoN x SG Jv V = a3). { unfold a3, third_SI. apply order3_ext; try reflexivity; intro i; cbn [mean_polarizability anisotropy]; rewrite !R0; unfold Rdiv; ring. }
  assert (HG0 : sound g0 N SG EK) by exact HG. assert (HGn : sound gn N SG EK) by exact HG.
  destruct (Eprime_val J K g0 T rhoN rs x (y_mu g) _ SG EK Jv V HT HG0 W0 ltac:(discriminate) HJ HK) as (d2 & d3 & _ & EP); [fold N; rewrite E2; exact N2|fold N; rewrite E2, E3; exact N3|].
  destruct (C86_orders J K g0 T rhoN rs x (y_mu g) _ SG EK Jv V HT HG0 W0 HJ HK) as [O2 O3]. fold N in EP, O2, O3. rewrite E2 in O2, EP. rewrite E3 in O3, EP.
  assert (Q : 1 - a3 / a2 <> 0). { intro Z. apply N3. assert (Q : a3 / a2 = 1) by lra. rewrite <- (Rmult_1_l a2), <- Q. field. exact N2. }
  split.
  - assert (IT : forall n, iterate_muprime J K g0 T rhoN rs x n (y_mu g) = ok (y_mu g)).
    { induction n as [|n IH]; [reflexivity|]. cbn [iterate_muprime]. rewrite EP. unfold obind at 1, ok at 1.
      replace (map _ (seq 0 (length x))) with (y_mu g); [exact IH|]. apply (nth_ext _ _ 0 0); [rewrite map_length, seq_length; exact Lm|]. intros i Hi. rewrite Lm in Hi. symmetry. rewrite (nth_indep _ 0 ((fun i => nth i (y_mu g0) 0 + match y_polar g0 with Some (s, _) => nth i s 0 | None => 0 end * nth i (map (fun i => field_of T a2 a3 (d2 i) (d3 i)) (seq 0 N)) 0) O)) by (rewrite map_length, seq_length; exact Hi).
      rewrite (map_nth (fun i => nth i (y_mu g0) 0 + match y_polar g0 with Some (s, _) => nth i s 0 | None => 0 end * nth i (map (fun i => field_of T a2 a3 (d2 i) (d3 i)) (seq 0 N)) 0)). rewrite seq_nth by exact Hi. cbn [g0 with_polarizabilities y_polar y_mu Nat.add]. rewrite R0. ring. }
    unfold gg_eval. cbn [g0 with_polarizabilities y_polar y_sigma y_mu]. fold g0. rewrite Ls. fold N. rewrite Nat.eqb_refl. cbn [negb]. rewrite (IT 10%nat). unfold obind at 1, ok at 1. rewrite EP. unfold obind at 1, ok at 1.
    pose proof k_B_pos. rewrite cdiv_nz by (apply Rgt_not_eq, Rmult_lt_0_compat; [assumption|exact HT]). cbn [opt_bind]. rewrite O2, O3. cbn [opt_bind]. rewrite cdiv_nz by exact N2. cbn [opt_bind]. rewrite cdiv_nz by exact Q. cbn [opt_bind].
    rewrite sumn_0 by (intros i Hi; rewrite R0; ring). replace (a2 / (1 - a3 / a2) + 1 / 2 * 0 / (k_B * T)) with (pade a2 a3) by (unfold pade, Rdiv; ring). reflexivity.
  - destruct (C86_formula J K gn T rhoN rs x SG EK Jv V HT HGn eq_refl HJ HK) as [F _]; [|exact (F N2 N3)].
    destruct (has_polar (y_Q g) (y_mu g)) eqn:H.
    + destruct (Exists_dec (fun v => v <> 0) (y_Q g) (fun v => match Req_EM_T v 0 with left e => right (fun n => n e) | right n => left n end)) as [X|X]; [apply Exists_exists in X; destruct X as (v & I & Nv); apply (In_nth _ _ 0) in I; destruct I as (i & _ & <-); exists i; now right|].
      destruct (Exists_dec (fun v => v <> 0) (y_mu g) (fun v => match Req_EM_T v 0 with left e => right (fun n => n e) | right n => left n end)) as [Y|Y]; [apply Exists_exists in Y; destruct Y as (v & I & Nv); apply (In_nth _ _ 0) in I; destruct I as (i & _ & <-); exists i; now left|].
      exfalso. assert (Z : has_polar (y_Q g) (y_mu g) = false); [|congruence]. apply has_polar_false. split; apply Forall_forall; intros v I; (destruct (Req_EM_T v 0) as [e|n]; [exact e|exfalso]); [apply X|apply Y]; apply Exists_exists; eauto.
    + exfalso. apply N2. apply has_polar_false in H. destruct H as [H1 H2]. unfold a2, second_SI, order2. replace (sum2 _ _ _) with 0; [ring|]. symmetry. unfold sum2. apply sumn_0. intros i Hi. apply sumn_0. intros j Hj.
      unfold zz, dipole_SI, quadrupole_SI, mean_polarizability. rewrite (zero_nth _ i H1), (zero_nth _ i H2), (zero_nth _ j H1), (zero_nth _ j H2). unfold Rdiv. ring.
Qed.
(** ** The field that polarizes *)
Lemma pure_poly : forall J K g T rhoN rs SG EK Jv V, 0 < T -> sound g 1 SG EK -> J_at J 1 (fun i j => T / EK i j) rs Jv -> K_at K 1 (fun i j => T / EK i j) rs V ->
  exists P2 P3 D2 D3 W : R -> R, forall m,
    gg_alpha2 J g T rhoN rs [1] [m] = Some (P2 m) /\ gg_alpha3 J K g T rhoN rs [1] [m] = Some (P3 m) /\
    gg_grad2 J g T rhoN rs [1] [m] 0 = Some (D2 m) /\ gg_grad3 J K g T rhoN rs [1] [m] 0 = Some (D3 m + y_C3 g * (1 - y_C3b g) * W m) /\
    is_derive P2 m (D2 m) /\ is_derive P3 m (D3 m) /\ (m <> 0 -> nth 0 (y_Q g) 0 <> 0 -> rhoN <> 0 -> W m <> 0).
Proof.
  intros J K g T rhoN rs SG EK Jv V HT HG HJ HK. pose proof HG as (L & HS & HE).
  set (b := 1 / (k_B * T)). set (io := gg_iso g 0). set (ga := gg_gamma g 0). set (q := nth 0 (y_Q g) 0).
  set (I n := 4 * PI / SG 0%nat 0%nat ^ (n - 3) * Jv n 0%nat 0%nat).
  set (s := SG 0%nat 0%nat).
  set (a := 64 * POW3 PI / 5 * sqrt (14 * PI / 5) / (s * s * s) * triplet V (222, 333)%nat 0%nat 0%nat 0%nat).
  set (bb := 2048 * POW3 PI / 7 * sqrt (3 * PI) / (s * POW2 (s * s)) * triplet V (233, 344)%nat 0%nat 0%nat 0%nat).
  set (c := - 4096 * POW3 PI / 9 * sqrt (22 * PI / 7) / (POW2 (s * s) * POW3 s) * triplet V (334, 445)%nat 0%nat 0%nat 0%nat).
  set (d := 8192 * POW3 PI / 81 * sqrt (2002 * PI) / POW3 (s * s * s) * triplet V (444, 555)%nat 0%nat 0%nat 0%nat).
  set (z := fun m : R => 1 / 3 * (m * m * b) + io).
  exists (fun m => - rhoN * k_e * k_e * (3 / 2 * (z m * z m - io * io) * I 6%nat + 3 / 2 * z m * b * q ^ 2 * I 8%nat + 7 / 10 * b * b * q ^ 2 * q ^ 2 * I 10%nat)).
  exists (fun m => y_C3 g * (rhoN * ((2 / 5 * b * b * (m * m) * (m * m) + 4 / 5 * ga * b * (m * m) + 4 / 25 * ga * ga) * b * q * q * I 11%nat + 12 / 35 * (b * (m * m) + ga) * b * b * q * (q * q * q) * I 13%nat + 36 / 245 * (b * b * b) * q ^ 3 * q ^ 3 * I 15%nat)
     + rhoN * rhoN * (1 / 2 * (z m * z m * z m - io * io * io) * a + y_C3b g * (3 / 160 * z m * z m * b * q ^ 2 * bb + 3 / 640 * z m * (b * b) * q ^ 2 * q ^ 2 * c) + 1 / 6400 * (b * b * b) * q ^ 2 * q ^ 2 * q ^ 2 * d)) * k_e * k_e * k_e).
  exists (fun m => - k_e * k_e * (m * (rhoN * (2 * z m * I 6%nat + b * q ^ 2 * I 8%nat))) * b).
  exists (fun m => y_C3 g * m * (rhoN * (8 / 5 * (b * (m * m) + ga) * b * q * q * I 11%nat + 24 / 35 * b * b * q * q ^ 3 * I 13%nat)
     + rhoN * rhoN * (z m * z m * a + y_C3b g * (1 / 40 * z m * b * q ^ 2 * bb + 1 / 320 * (b * b) * q ^ 2 * q ^ 2 * c))) * k_e * k_e * k_e * b).
  exists (fun m => m * (rhoN * rhoN * (1 / 320 * (b * b) * q ^ 2 * q ^ 2 * c)) * k_e * k_e * k_e * b).
  intro m.
  assert (HJ' : J_at J (length [1]) (fun i j => T / EK i j) rs Jv) by exact HJ. assert (HK' : K_at K (length [1]) (fun i j => T / EK i j) rs V) by exact HK.
  assert (LT : (0 < length [1])%nat) by (cbn; lia).
  assert (IV : forall n, In n pair_orders -> get_In J g T rs n 0 0 = Some (I n)) by (intros n Hn; apply (In_val J g T rs [1] SG EK Jv HS HE HJ' n 0 0 Hn LT LT)).
  assert (B : cdiv 1 (k_B * T) = Some b) by (pose proof k_B_pos; rewrite cdiv_nz; [reflexivity|apply Rgt_not_eq, Rmult_lt_0_compat; assumption]).
  split; [|split; [|split; [|split; [|split; [|split]]]]].
  - unfold gg_alpha2. rewrite B. cbn [opt_bind length]. cbn [osum]. rewrite !IV by (cbn; tauto). cbn [opt_bind nth]. f_equal. unfold z, io, q, gg_iso, POW2. cbn [nth]. ring.
  - unfold gg_alpha3. rewrite B. cbn [opt_bind length]. cbn [osum]. rewrite !IV by (cbn; tauto). cbn [opt_bind nth].
    rewrite (Immm_val K g T rs [1] [] SG EK V HS HE HK' 0 0 0 LT LT LT), (ImmQ_val K g T rs [1] [] SG EK V HS HE HK' 0 0 0 LT LT LT), (ImQQ_val K g T rs [1] SG EK V HS HE HK' 0 0 0 LT LT LT), (IQQQ_val K g T rs [1] [] SG EK V HS HE HK' 0 0 0 LT LT LT). cbn [opt_bind]. f_equal.
    fold s. fold a bb c d. unfold z, io, ga, q, gg_iso, gg_gamma, POW3, POW2. cbn [nth]. ring.
  - unfold gg_grad2. rewrite B. cbn [opt_bind length]. cbn [osum]. rewrite !IV by (cbn; tauto). cbn [opt_bind nth]. f_equal. unfold z, io, q, gg_iso, POW2. cbn [nth]. ring.
  - unfold gg_grad3. rewrite B. cbn [opt_bind length]. cbn [osum]. rewrite !IV by (cbn; tauto). cbn [opt_bind nth].
    rewrite (Immm_val K g T rs [1] [] SG EK V HS HE HK' 0 0 0 LT LT LT), (ImmQ_val K g T rs [1] [] SG EK V HS HE HK' 0 0 0 LT LT LT), (ImQQ_val K g T rs [1] SG EK V HS HE HK' 0 0 0 LT LT LT). cbn [opt_bind]. f_equal.
    fold s. fold a bb c. unfold z, io, ga, q, gg_iso, gg_gamma, POW3, POW2. cbn [nth]. unfold Rdiv. ring.
  - unfold z. generalize (I 6%nat) (I 8%nat) (I 10%nat). intros. auto_derive; [trivial|]. field.
  - unfold z. generalize (I 11%nat) (I 13%nat) (I 15%nat) a bb c d. intros. auto_derive; [trivial|]. field.
  - intros Nm Nq Nr. pose proof k_e_pos as Ke. pose proof k_B_pos as Kb. assert (Bp : b <> 0) by (apply Rgt_not_eq; unfold b; apply Rdiv_lt_0_compat; [lra|now apply Rmult_lt_0_compat]).
    assert (Cn : c <> 0). { unfold c. assert (Z : 0 < - triplet V (334, 445)%nat 0%nat 0%nat 0%nat) by (generalize (triplet_sign V (334, 445)%nat 0 0 0); unfold Polar_spec.sign; cbn [fst Nat.eqb]; intro Z; assert (0 < -1 * triplet V (334, 445)%nat 0%nat 0%nat 0%nat) by (apply Z; cbn; tauto); lra).
      destruct (HS 0%nat 0%nat LT LT) as [_ Sp]. fold s in Sp. pose proof PI_RGT_0 as Pp.
      assert (P3 : 0 < POW3 PI) by (unfold POW3; apply Rmult_lt_0_compat; [apply Rmult_lt_0_compat|]; lra). assert (Q3 : 0 < sqrt (22 * PI / 7)) by (apply sqrt_lt_R0; lra).
      destruct (dens s s s Sp Sp Sp) as (_ & _ & D4 & _). apply Rinv_0_lt_compat in D4.
      assert (Y : 0 < 4096 / 9 * (POW3 PI * (sqrt (22 * PI / 7) * (/ (POW2 (s * s) * POW3 s) * - triplet V (334, 445)%nat 0%nat 0%nat 0%nat)))) by (apply Rmult_lt_0_compat; [lra|]; apply Rmult_lt_0_compat; [exact P3|]; apply Rmult_lt_0_compat; [exact Q3|]; now apply Rmult_lt_0_compat).
      unfold Rdiv in *. intro Z'. apply (Rlt_irrefl 0). eapply Rlt_le_trans; [exact Y|]. right. rewrite <- Z'. ring. }
    assert (Qn : q ^ 2 <> 0) by (apply pow_nonzero; exact Nq). revert Bp Cn Qn. generalize (q ^ 2) b c. intros q2 b' c' Bp Cn Qn. repeat (apply Rmult_integral_contrapositive; split); try assumption; lra.
Qed.
(** For a pure fluid without the factor C3b it is the derivative of the contribution with respect to
    the effective dipole *)
Theorem C86_field : forall J K g p T rhoN rs SG EK Jv V, 0 < T -> sound g 1 SG EK -> with_volumes g p -> p <> None -> y_C3b g = 1 ->
  J_at J 1 (fun i j => T / EK i j) rs Jv -> K_at K 1 (fun i j => T / EK i j) rs V ->
  let A2 m := second_SI g [m] p T rhoN [1] SG Jv in let A3 m := third_SI g [m] p T rhoN [1] SG Jv V in
  forall m, A2 m <> 0 -> A3 m <> A2 m -> exists E, gg_Eprime J K g T rhoN rs [1] [m] = ok [E] /\ is_derive (fun m => boltzmann * T * pade (A2 m) (A3 m)) m (- E).
Proof.
  intros J K g p T rhoN rs SG EK Jv V HT HG W Np C1 HJ HK A2 A3 m N2 N3.
  destruct (pure_poly J K g T rhoN rs SG EK Jv V HT HG HJ HK) as (P2 & P3 & D2 & D3 & WW & HP).
  assert (EA : forall m, P2 m = A2 m /\ P3 m = A3 m). { intro m'. destruct (HP m') as (E2 & E3 & _). destruct (C86_orders J K g T rhoN rs [1] [m'] p SG EK Jv V HT HG W HJ HK) as [F2 F3]. split; [rewrite F2 in E2; injection E2 as E2; now rewrite <- E2|rewrite F3 in E3; injection E3 as E3; now rewrite <- E3]. }
  destruct (HP m) as (_ & _ & G2 & G3 & I2 & I3 & _). rewrite C1 in G3. replace (D3 m + y_C3 g * (1 - 1) * WW m) with (D3 m) in G3 by ring.
  destruct (Eprime_val J K g T rhoN rs [1] [m] p SG EK Jv V HT HG W Np HJ HK N2 N3) as (d2 & d3 & Hd & EP). destruct (Hd 0%nat ltac:(cbn; lia)) as [Z2 Z3]. rewrite G2 in Z2. rewrite G3 in Z3. injection Z2 as Z2. injection Z3 as Z3.
  fold (A2 m) in EP. fold (A3 m) in EP. cbn [length seq map] in EP. eexists. split; [exact EP|].
  assert (J2 : is_derive A2 m (D2 m)) by (apply (is_derive_ext P2); [intro; apply EA|exact I2]). assert (J3 : is_derive A3 m (D3 m)) by (apply (is_derive_ext P3); [intro; apply EA|exact I3]).
  rewrite <- Z2, <- Z3. rewrite <- k_B_boltzmann. unfold field_of, pade.
  assert (Q : 1 - A3 m / A2 m <> 0). { intro Z. apply N3. assert (Q : A3 m / A2 m = 1) by lra. rewrite <- (Rmult_1_l (A2 m)), <- Q. field. exact N2. }
  assert (X2 : ex_derive A2 m) by (eexists; exact J2). assert (X3 : ex_derive A3 m) by (eexists; exact J3).
  auto_derive; [repeat split; auto|]. replace (Derive (fun x => A2 x) m) with (D2 m) by (symmetry; exact (is_derive_unique _ _ _ J2)). replace (Derive (fun x => A3 x) m) with (D3 m) by (symmetry; exact (is_derive_unique _ _ _ J3)). unfold POW2. field. repeat split; try assumption. intro Z. apply N3. lra.
Qed.
(** With the factor it is not: the last term of the gradient of the third order lacks it *)
Theorem C86_field_C3b_refuted : forall J K g T rhoN rs SG EK Jv V, 0 < T -> sound g 1 SG EK -> J_at J 1 (fun i j => T / EK i j) rs Jv -> K_at K 1 (fun i j => T / EK i j) rs V ->
  y_C3 g <> 0 -> y_C3b g <> 1 -> nth 0 (y_Q g) 0 <> 0 -> rhoN <> 0 ->
  exists A3 : R -> R, (forall m, gg_alpha3 J K g T rhoN rs [1] [m] = Some (A3 m)) /\ forall m d, m <> 0 -> gg_grad3 J K g T rhoN rs [1] [m] 0 = Some d -> ~ is_derive A3 m d.
Proof.
  intros J K g T rhoN rs SG EK Jv V HT HG HJ HK C3 C1 Nq Nr. destruct (pure_poly J K g T rhoN rs SG EK Jv V HT HG HJ HK) as (P2 & P3 & D2 & D3 & WW & HP).
  exists P3. split; [intro m; apply HP|]. intros m d Nm Ed Hd. destruct (HP m) as (_ & _ & _ & G3 & _ & I3 & Wn). rewrite Ed in G3. injection G3 as G3. apply is_derive_unique in Hd. apply is_derive_unique in I3. rewrite I3 in Hd. rewrite <- Hd in G3.
  specialize (Wn Nm Nq Nr). assert (Z : y_C3 g * (1 - y_C3b g) * WW m <> 0) by (apply Rmult_integral_contrapositive; split; [apply Rmult_integral_contrapositive; split; [exact C3|lra]|exact Wn]). lra.
Qed.
(** In mixtures neither gradient is the derivative.  Two components of which one has a dipole: twice
    the derivative *)
Definition half_polar (C3 : R) : gray :=
  {| y_sigma := [1; 1]; y_S := fun _ _ => Some 1; y_E := fun _ _ => Some 1; y_mu := [1; 0]; y_Q := [0; 0]; y_approach := use_packing_fraction; y_C3 := C3; y_C3b := 1; y_polar := Some ([0; 0], [0; 0]) |}.
Definition unit_J : nat -> R -> R -> option R := fun _ _ _ => Some 1.
Definition unit_K : nat * nat -> R -> R -> option R := fun k _ _ => Some (Polar_spec.sign k).
Theorem C86_gradient2_refuted : forall T rhoN rs, 0 < T -> rhoN <> 0 ->
  exists (A : R -> R) (d : R), (forall m, gg_alpha2 unit_J (half_polar 1) T rhoN rs [1/2; 1/2] [m; 0] = Some (A m)) /\ is_derive A 1 d /\ d <> 0 /\
    gg_grad2 unit_J (half_polar 1) T rhoN rs [1/2; 1/2] [1; 0] 0 = Some (2 * d).
Proof.
  intros T rhoN rs HT Hr. set (b := 1 / (k_B * T)). pose proof k_B_pos as Kb. pose proof k_e_pos as Ke.
  assert (B : cdiv 1 (k_B * T) = Some b) by (rewrite cdiv_nz; [reflexivity|apply Rgt_not_eq, Rmult_lt_0_compat; assumption]).
  assert (IV : forall n i j, get_In unit_J (half_polar 1) T rs n i j = Some (4 * PI)). { intros n i j. unfold get_In, half_polar, unit_J. cbn [y_S y_E opt_bind]. rewrite cdiv_nz by lra. cbn [opt_bind]. rewrite pow1, cdiv_nz by lra. cbn [opt_bind]. f_equal. field. }
  exists (fun m => - rhoN * k_e * k_e * (1 / 4 * (3 / 2 * ((1 / 3 * (m * m * b)) * (1 / 3 * (m * m * b))) * (4 * PI)))), (- rhoN * k_e * k_e * (b * b * PI * (2 / 3))).
  split; [|split; [|split]].
  - intro m. unfold gg_alpha2. rewrite B. cbn [opt_bind length osum]. rewrite !IV. cbn [opt_bind]. f_equal. unfold half_polar, POW2. cbn [y_Q y_polar nth]. field.
  - auto_derive; [trivial|]. field.
  - pose proof PI_RGT_0 as Pp. assert (Bp : b <> 0) by (apply Rgt_not_eq; unfold b; apply Rdiv_lt_0_compat; [lra|now apply Rmult_lt_0_compat]). clear B. clearbody b. revert Pp Ke. generalize PI k_e. intros pi ke Pp Ke. repeat (apply Rmult_integral_contrapositive; split); try lra.
  - unfold gg_grad2. rewrite B. cbn [opt_bind length osum]. rewrite !IV. cbn [opt_bind]. f_equal. unfold half_polar, POW2. cbn [y_Q y_polar nth]. field.
Qed.
Theorem C86_gradient3_refuted : forall T rhoN rs, 0 < T -> rhoN <> 0 ->
  exists (A : R -> R) (d : R), (forall m, gg_alpha3 unit_J unit_K (half_polar 1) T rhoN rs [1/2; 1/2] [0; m] = Some (A m)) /\ is_derive A 1 d /\ d <> 0 /\
    gg_grad3 unit_J unit_K (half_polar 1) T rhoN rs [1/2; 1/2] [0; 1] 1 = Some (2 * d).
Proof.
  intros T rhoN rs HT Hr. set (b := 1 / (k_B * T)). pose proof k_B_pos as Kb. pose proof k_e_pos as Ke. pose proof PI_RGT_0 as Pp.
  assert (B : cdiv 1 (k_B * T) = Some b) by (rewrite cdiv_nz; [reflexivity|apply Rgt_not_eq, Rmult_lt_0_compat; assumption]).
  assert (IV : forall n i j, get_In unit_J (half_polar 1) T rs n i j = Some (4 * PI)). { intros n i j. unfold get_In, half_polar, unit_J. cbn [y_S y_E opt_bind]. rewrite cdiv_nz by lra. cbn [opt_bind]. rewrite pow1, cdiv_nz by lra. cbn [opt_bind]. f_equal. field. }
  set (w := 64 * POW3 PI / 5 * sqrt (14 * PI / 5)).
  assert (HS : forall N i j, (i < N)%nat -> (j < N)%nat -> y_S (half_polar 1) i j = Some 1 /\ 0 < 1) by (intros; split; [reflexivity|lra]).
  assert (HK : K_at unit_K (length [1/2; 1/2]) (fun i j => T / 1) rs (fun k _ _ => Polar_spec.sign k)). { intros k i j Hk _ _. split; [reflexivity|]. unfold Polar_spec.sign. destruct (Nat.eqb _ _); lra. }
  assert (TV : forall k i j l, triplet (fun k _ _ => Polar_spec.sign k) k i j l = Polar_spec.sign k). { intros k i j l. unfold triplet. assert (E : Polar_spec.sign k * Polar_spec.sign k * Polar_spec.sign k * Polar_spec.sign k = 1) by (unfold Polar_spec.sign; destruct (Nat.eqb _ _); lra). rewrite E. unfold Rpower. rewrite ln_1, Rmult_0_r, exp_0. ring. }
  assert (IM : forall i j k, (i < 2)%nat -> (j < 2)%nat -> (k < 2)%nat -> Immm unit_K (half_polar 1) T rs i j k = Some w). { intros i j k Hi Hj Hk. rewrite (Immm_val unit_K (half_polar 1) T rs [1/2; 1/2] [] (fun _ _ => 1) (fun _ _ => 1) _ (HS 2%nat) (HS 2%nat) HK i j k Hi Hj Hk), TV. f_equal. unfold w, Polar_spec.sign. cbn. field. }
  assert (IQ : forall i j k, (i < 2)%nat -> (j < 2)%nat -> (k < 2)%nat -> exists u v t, ImmQ unit_K (half_polar 1) T rs i j k = Some u /\ ImQQ unit_K (half_polar 1) T rs i j k = Some v /\ IQQQ unit_K (half_polar 1) T rs i j k = Some t).
  { intros i j k Hi Hj Hk. do 3 eexists. split; [now apply (ImmQ_val unit_K (half_polar 1) T rs [1/2; 1/2] [] (fun _ _ => 1) (fun _ _ => 1) _ (HS 2%nat) (HS 2%nat) HK)|]. split; [now apply (ImQQ_val unit_K (half_polar 1) T rs [1/2; 1/2] (fun _ _ => 1) (fun _ _ => 1) _ (HS 2%nat) (HS 2%nat) HK)|now apply (IQQQ_val unit_K (half_polar 1) T rs [1/2; 1/2] [] (fun _ _ => 1) (fun _ _ => 1) _ (HS 2%nat) (HS 2%nat) HK)]. }
  exists (fun m => rhoN * rhoN * (1 / 8 * (1 / 2 * ((1 / 3 * (m * m * b)) * (1 / 3 * (m * m * b)) * (1 / 3 * (m * m * b))) * w)) * k_e * k_e * k_e), (rhoN * rhoN * (1 / 72 * (b * b * b) * w) * k_e * k_e * k_e).
  split; [|split; [|split]].
  - intro m. unfold gg_alpha3. rewrite B. cbn [opt_bind length osum]. rewrite !IV. rewrite !IM by lia. cbn [opt_bind].
    destruct (IQ 0%nat 0%nat 0%nat) as (u1 & v1 & t1 & -> & -> & ->); try lia. destruct (IQ 0%nat 0%nat 1%nat) as (u2 & v2 & t2 & -> & -> & ->); try lia. destruct (IQ 0%nat 1%nat 0%nat) as (u3 & v3 & t3 & -> & -> & ->); try lia. destruct (IQ 0%nat 1%nat 1%nat) as (u4 & v4 & t4 & -> & -> & ->); try lia.
    destruct (IQ 1%nat 0%nat 0%nat) as (u5 & v5 & t5 & -> & -> & ->); try lia. destruct (IQ 1%nat 0%nat 1%nat) as (u6 & v6 & t6 & -> & -> & ->); try lia. destruct (IQ 1%nat 1%nat 0%nat) as (u7 & v7 & t7 & -> & -> & ->); try lia. destruct (IQ 1%nat 1%nat 1%nat) as (u8 & v8 & t8 & -> & -> & ->); try lia.
    cbn [opt_bind]. f_equal. unfold half_polar, POW3, POW2. cbn [y_Q y_C3 y_C3b y_polar nth]. generalize w. intro w'. field.
  - generalize w. intro w'. auto_derive; [trivial|]. field.
  - assert (b <> 0) by (apply Rgt_not_eq; unfold b; apply Rdiv_lt_0_compat; [lra|now apply Rmult_lt_0_compat]).
    assert (0 < w) by (unfold w, POW3, POW2; apply Rmult_lt_0_compat; [assert (0 < PI * PI * PI) by (apply Rmult_lt_0_compat; [apply Rmult_lt_0_compat|]; lra); lra|apply sqrt_lt_R0; lra]). clear B IM. clearbody b w. revert Ke. generalize k_e. intros ke Ke. repeat (apply Rmult_integral_contrapositive; split); try lra.
  - unfold gg_grad3. rewrite B. cbn [opt_bind length osum]. rewrite !IV. rewrite !IM by lia. cbn [opt_bind].
    destruct (IQ 0%nat 0%nat 0%nat) as (u1 & v1 & t1 & -> & -> & _); try lia. destruct (IQ 0%nat 0%nat 1%nat) as (u2 & v2 & t2 & -> & -> & _); try lia. destruct (IQ 0%nat 1%nat 0%nat) as (u3 & v3 & t3 & -> & -> & _); try lia. destruct (IQ 0%nat 1%nat 1%nat) as (u4 & v4 & t4 & -> & -> & _); try lia.
    destruct (IQ 1%nat 0%nat 0%nat) as (u5 & v5 & t5 & -> & -> & _); try lia. destruct (IQ 1%nat 0%nat 1%nat) as (u6 & v6 & t6 & -> & -> & _); try lia. destruct (IQ 1%nat 1%nat 0%nat) as (u7 & v7 & t7 & -> & -> & _); try lia. destruct (IQ 1%nat 1%nat 1%nat) as (u8 & v8 & t8 & -> & -> & _); try lia.
    cbn [opt_bind]. f_equal. unfold half_polar, POW3, POW2. cbn [y_Q y_C3 y_C3b y_polar nth]. generalize w. intro w'. field.
Qed.
(** Polarizable molecules without polarizabilities in the options: the iteration throws *)
Theorem C86_not_polarizable : forall J K g T rhoN rs x n mp, y_polar g = None -> gg_Eprime J K g T rhoN rs x mp = throws InvalidArgument /\ iterate_muprime J K g T rhoN rs x n mp = throws InvalidArgument.
Proof. intros J K g T rhoN rs x n mp W. assert (E : gg_Eprime J K g T rhoN rs x mp = throws InvalidArgument) by (unfold gg_Eprime; now rewrite W). split; [exact E|]. destruct n; cbn [iterate_muprime]; [now rewrite W|]. now rewrite E. Qed.
(** Example: water-like molecules and others, with the integrals of Gubbins and Twu *)
Definition two_polar : gray :=
  {| y_sigma := [3e-10; 4e-10]; y_S := fun i j => Some (mean_diameter [3e-10; 4e-10] i j); y_E := fun i j => Some (sqrt (nth i [100; 200] 0 * nth j [100; 200] 0)); y_mu := [0; 6e-30]; y_Q := [1e-40; 0];
     y_approach := use_packing_fraction; y_C3 := 1; y_C3b := 1; y_polar := None |}.
Example C86_attractive_met : sound two_polar 2 (mean_diameter [3e-10; 4e-10]) (fun i j => sqrt (nth i [100; 200] 0 * nth j [100; 200] 0)) /\ sound (half_polar 1) 2 (fun _ _ => 1) (fun _ _ => 1) /\ sound (half_polar 1) 1 (fun _ _ => 1) (fun _ _ => 1) /\
  J_at unit_J 2 (fun _ _ => 1) 0 (fun _ _ _ => 1) /\ K_at unit_K 2 (fun _ _ => 1) 0 (fun k _ _ => Polar_spec.sign k).
Proof.
  split; [|split; [|split; [|split]]].
  - split; [cbn; lia|]. split; intros i j Hi Hj; (split; [reflexivity|]); assert (D : i = 0%nat \/ i = 1%nat) by lia; assert (D' : j = 0%nat \/ j = 1%nat) by lia; destruct D as [-> | ->], D' as [-> | ->]; cbn; try (apply sqrt_lt_R0); unfold mean_diameter; cbn; lra.
  - split; [cbn; lia|]. split; intros i j Hi Hj; (split; [reflexivity|lra]).
  - split; [cbn; lia|]. split; intros i j Hi Hj; (split; [reflexivity|lra]).
  - intros n i j _ _ _. reflexivity.
  - intros k i j _ _ _. split; [reflexivity|]. unfold Polar_spec.sign. destruct (Nat.eqb _ _); lra.
Qed.
Lemma obind_ok : forall A B (a : A) (f : A -> outcome B), obind (ok a) f = f a. Proof. reflexivity. Qed.
(** Polarizable molecules: ten steps of substitution from the permanent dipoles, each adding to them
    what the field at the last ones induces along the axis; then the expansion with the effective
    dipoles and the energy it takes to polarize *)
Theorem C86_polarizable : forall J K g p T rhoN rs x SG EK Jv V (mp E : nat -> list R), 0 < T -> sound g (length x) SG EK -> length (y_sigma g) = length x -> with_volumes g (Some p) ->
  J_at J (length x) (fun i j => T / EK i j) rs Jv -> K_at K (length x) (fun i j => T / EK i j) rs V ->
  mp 0%nat = y_mu g -> (forall k, (k <= 10)%nat -> gg_Eprime J K g T rhoN rs x (mp k) = ok (E k)) ->
  (forall k, (k < 10)%nat -> mp (S k) = map (fun i => nth i (y_mu g) 0 + nth i (fst p) 0 / coulomb * nth i (E k) 0) (seq 0 (length x))) ->
  let a2 := second_SI g (mp 10%nat) (Some p) T rhoN x SG Jv in let a3 := third_SI g (mp 10%nat) (Some p) T rhoN x SG Jv V in
  a2 <> 0 -> a3 <> a2 ->
  gg_eval J K g T rhoN rs x = ok {| r_alpha2 := a2; r_alpha3 := a3;
    r_alpha := pade a2 a3 + 1 / 2 * sumn (length x) (fun i => nth i x 0 * (nth i (fst p) 0 / coulomb) * nth i (E 10%nat) 0 ^ 2) / (boltzmann * T) |}.
Proof.
  intros J K g p T rhoN rs x SG EK Jv V mp E HT HG L W HJ HK M0 HE HM a2 a3 N2 N3.
  destruct (C86_orders J K g T rhoN rs x (mp 10%nat) (Some p) SG EK Jv V HT HG W HJ HK) as [E2 E3]. fold a2 in E2. fold a3 in E3.
  destruct p as [s a]. cbn [fst] in *. pose proof k_B_pos as Kb.
  assert (SY : forall i, (match y_polar g with Some (s0, _) => nth i s0 0 | None => 0 end) = nth i s 0 / coulomb). { intro i. rewrite W. rewrite nth_map0 by (unfold Rdiv; ring). now rewrite k_e_coulomb. }
  assert (IT : forall n k, (k + n = 10)%nat -> iterate_muprime J K g T rhoN rs x n (mp k) = ok (mp 10%nat)).
  { induction n as [|n IH]; intros k Hk.
    - replace k with 10%nat by lia. cbn [iterate_muprime]. now rewrite W.
    - cbn [iterate_muprime]. rewrite HE by lia. unfold obind, ok. cbv iota. fold (@ok (list R) (mp 10%nat)). rewrite <- (IH (S k)) by lia. f_equal. rewrite HM by lia. apply map_ext. intro i. now rewrite SY. }
  unfold gg_eval. assert (WW : exists q, y_polar g = Some q) by (rewrite W; eauto). destruct WW as [q Wq].
  assert (SQ : forall i, (let (s0, _) := q in nth i s0 0) = nth i s 0 / coulomb) by (intro i; rewrite <- SY, Wq; now destruct q).
  rewrite Wq, L, Nat.eqb_refl. cbn [negb]. rewrite <- M0, (IT 10%nat 0%nat eq_refl), obind_ok, (HE 10%nat (le_n _)), obind_ok.
  rewrite cdiv_nz by (apply Rgt_not_eq; now apply Rmult_lt_0_compat). cbn [opt_bind]. rewrite E2, E3. cbn [opt_bind]. rewrite cdiv_nz by exact N2. cbn [opt_bind].
  rewrite cdiv_nz. 2:{ intro Z. apply N3. assert (Q : a3 / a2 = 1) by lra. rewrite <- (Rmult_1_l a2), <- Q. field. exact N2. }
  cbn [opt_bind fin]. unfold ok. do 3 f_equal. unfold pade. rewrite <- k_B_boltzmann. f_equal. f_equal. f_equal. apply sumn_ext. intros i Hi. rewrite SQ. ring.
Qed.
(** ** In SAFT-VR-Mie
    The density of the integrals is the packing fraction over pi/6, or that of the van der Waals
    one-fluid mean of the cubed diameters *)
Definition density_of (b : bool) (sigma : list R) (rhoN eta : R) (x : list R) : R :=
  if b then rhoN * Polar_spec.sum2 (length x) (fun i => nth i x 0) (fun i j => mean_diameter sigma i j ^ 3) else 6 * eta / PI.
Theorem C86_SAFT_GubbinsTwu : forall k sigma eps mu2 Q2 (b : bool) T rhoN eta x Jv V, length sigma = length mu2 -> length sigma = length Q2 -> (length sigma <= length eps)%nat ->
  let g := {| t_sigma := sigma; t_eps := eps; t_mu2 := mu2; t_Q2 := Q2; t_approach := if b then calculate_Gubbins_rhostar else use_packing_fraction |} in
  let rs := density_of b sigma rhoN eta x in
  0 < T -> proper g (length x) -> J_at (the_J k) (length x) (reduced_T T eps) rs Jv -> K_at (the_K k) (length x) (reduced_T T eps) rs V -> (exists i, nth i mu2 0 <> 0 \/ nth i Q2 0 <> 0) ->
  second g T rhoN x Jv <> 0 -> third g T rhoN x Jv V <> second g T rhoN x Jv ->
  eval_polar (VRMie_model.PolGubbinsTwu k sigma eps mu2 Q2 b) T rhoN eta x = ok (pade (second g T rhoN x Jv) (third g T rhoN x Jv V)).
Proof.
  intros k sigma eps mu2 Q2 b T rhoN eta x Jv V L1 L2 L3 g rs HT HP HJ HK Hm N2 N3. 
  assert (MG : make_gtwu sigma eps mu2 Q2 (if b then calculate_Gubbins_rhostar else use_packing_fraction) = ok g) by (unfold make_gtwu; rewrite <- L1, <- L2, Nat.eqb_refl; cbn [negb]; apply Nat.ltb_ge in L3; rewrite L3; reflexivity).
  assert (RS : get_rhostar (t_approach g) (t_sigma g) rhoN eta x = ok rs).
  { unfold g, rs, get_rhostar, density_of. cbn [t_approach t_sigma]. destruct b.
    - destruct HP as [LP _]. cbn [t_sigma g] in LP. apply Nat.ltb_ge in LP. unfold g in LP. cbn [t_sigma] in LP. rewrite LP. unfold ok. do 2 f_equal. apply f_equal. unfold Polar_spec.sum2. apply sumn_ext. intros i _. apply sumn_ext. intros j _. unfold mean_diameter, POW3, POW2. ring.
    - unfold ok. do 2 f_equal. pose proof PI_RGT_0. field. lra. }
  unfold eval_polar. rewrite MG, obind_ok, RS, obind_ok. destruct (C85_formula (the_J k) (the_K k) g T rhoN rs x Jv V HT HP HJ HK) as (_ & _ & F). destruct (F Hm) as [F1 _]. rewrite (F1 N2 N3). reflexivity.
Qed.
Theorem C86_SAFT_GrayGubbins : forall k sigma eps SGf EKf mu Q flags g T rhoN eta x SG EK Jv V, make_gray sigma SGf EKf mu Q flags = Val g ->
  (forall b, y_approach g = (if b : bool then calculate_Gubbins_rhostar else use_packing_fraction) ->
   let rs := density_of b sigma rhoN eta x in
   0 < T -> sound g (length x) SG EK -> y_polar g = None ->
   J_at (the_J k) (length x) (fun i j => T / EK i j) rs Jv -> K_at (the_K k) (length x) (fun i j => T / EK i j) rs V -> (exists i, nth i mu 0 <> 0 \/ nth i Q 0 <> 0) ->
   let a2 := second_SI g mu None T rhoN x SG Jv in let a3 := third_SI g mu None T rhoN x SG Jv V in
   a2 <> 0 -> a3 <> a2 -> eval_polar (VRMie_model.PolGrayGubbins k sigma eps SGf EKf mu Q flags) T rhoN eta x = ok (pade a2 a3)) /\
  (y_approach g = kInvalid -> eval_polar (VRMie_model.PolGrayGubbins k sigma eps SGf EKf mu Q flags) T rhoN eta x = throws InvalidArgument).
Proof.
  intros k sigma eps SGf EKf mu Q flags g T rhoN eta x SG EK Jv V HM.
  assert (F : y_sigma g = sigma /\ y_mu g = mu /\ y_Q g = Q).
  { unfold make_gray in HM. destruct (get_approach flags) as [ap|]; [|discriminate]. cbn [bind] in HM. destruct (get_number flags "C3") as [c|]; [|discriminate]. cbn [bind] in HM. destruct (get_number flags "C3b") as [c'|]; [|discriminate]. cbn [bind] in HM. destruct (get_polarizable flags) as [pl|]; [|discriminate]. cbn [bind] in HM.
    repeat match type of HM with (if ?b then _ else _) = _ => destruct b; [discriminate|] end. injection HM as <-. repeat split. }
  destruct F as (F1 & F2 & F3). split.
  - intros b HA rs HT HG W HJ HK Hm a2 a3 N2 N3. unfold eval_polar. rewrite HM. change (Some (Val g)) with (ok g). rewrite obind_ok.
    assert (RS : get_rhostar (y_approach g) (y_sigma g) rhoN eta x = ok rs).
    { rewrite HA, F1. unfold rs, get_rhostar, density_of. destruct b.
      - destruct HG as [LP _]. rewrite F1 in LP. apply Nat.ltb_ge in LP. rewrite LP. unfold ok. do 2 f_equal. apply f_equal. unfold Polar_spec.sum2. apply sumn_ext. intros i _. apply sumn_ext. intros j _. unfold mean_diameter, POW3, POW2. ring.
      - unfold ok. do 2 f_equal. pose proof PI_RGT_0. field. lra. }
    rewrite RS, obind_ok. rewrite <- F2, <- F3 in Hm. destruct (C86_formula (the_J k) (the_K k) g T rhoN rs x SG EK Jv V HT HG W HJ HK Hm) as [G1 _]. rewrite F2 in G1. fold a2 a3 in G1. rewrite (G1 N2 N3). reflexivity.
  - intro HA. unfold eval_polar. rewrite HM. change (Some (Val g)) with (ok g). rewrite obind_ok, HA. reflexivity.
Qed.
Print Assumptions C86_defaults.
Print Assumptions C86_options.
Print Assumptions C86_sizes.
Print Assumptions C86_sizes_polarizable.
Print Assumptions C86_approach.
Print Assumptions C86_orders.
Print Assumptions C86_formula.
Print Assumptions C86_nonpolar.
Print Assumptions C86_vacuum.
Print Assumptions C86_attractive.
Print Assumptions C86_agree.
Print Assumptions C86_components.
Print Assumptions C86_zero_polarizability.
Print Assumptions C86_field.
Print Assumptions C86_field_C3b_refuted.
Print Assumptions C86_gradient2_refuted.
Print Assumptions C86_gradient3_refuted.
Print Assumptions C86_not_polarizable.
Print Assumptions C86_polarizable.
Print Assumptions C86_SAFT_GubbinsTwu.
Print Assumptions C86_SAFT_GrayGubbins.
