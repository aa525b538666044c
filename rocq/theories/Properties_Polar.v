(** C85: the correlation integrals and the polar contribution of Gubbins and Twu. *)
From Coq Require Import Reals ZArith String List Bool Lia Lra.
From Verif Require Import Json_model Vec_spec Vec_proofs Cubic_model Cubic_spec Cubic_proofs2 Terms_model Ideal_model Ideal_proofs Util_model Assoc_model GERG_tables VRMie_model Polar_tables Polar_model Polar_spec Polar_proofs Polar_proofs3.
Import ListNotations.
Local Open Scope R_scope.

(** * Integrals *)
(** The constructors of Luckas and Gottschalk know all orders of their publication and refuse all
    others; that of Gubbins and Twu knows those from 4 to 36 without 25 to 29 *)
Theorem C85_pairs : forall n,
  ((In n luckas_pairs /\ exists f, make_J Luckas n = Val f) \/ (~ In n luckas_pairs /\ make_J Luckas n = Err StdOutOfRange)) /\
  ((In n gottschalk_pairs /\ exists f, make_J Gottschalk n = Val f) \/ (~ In n gottschalk_pairs /\ make_J Gottschalk n = Err StdOutOfRange)) /\
  ((In n twu_pairs /\ ~ (25 <= n <= 29)%nat /\ exists f, make_J GubbinsTwu n = Val f) \/ (~ In n twu_pairs \/ (25 <= n <= 29)%nat) /\ make_J GubbinsTwu n = Err StdOutOfRange).
Proof.
  intro n. unfold make_J, at_key. assert (NE : forall a b, Nat.eqb a b = true <-> a = b) by (intros; apply Nat.eqb_eq). split; [|split].
  - destruct (first_in nat Nat.eqb NE luckas_J n) as [[I [v F]]|[I F]]; rewrite F; cbn [bind]; [left|right]; (split; [exact I|eauto]).
  - destruct (first_in nat Nat.eqb NE gottschalk_J n) as [[I [v F]]|[I F]]; rewrite F; cbn [bind]; [left|right]; (split; [exact I|eauto]).
  - assert (KK : In n (map fst twu_J) <-> In n twu_pairs /\ ~ (25 <= n <= 29)%nat). { unfold twu_pairs. rewrite in_seq. cbn [map fst twu_J In]. lia. }
    destruct (first_in nat Nat.eqb NE twu_J n) as [[I [v F]]|[I F]]; rewrite F; cbn [bind]; [left|right]; rewrite KK in I.
    + destruct I as [I1 I2]. repeat split; eauto.
    + split; [|reflexivity]. destruct (Nat.le_gt_cases 25 n) as [A|A]; [destruct (Nat.le_gt_cases n 29) as [B|B]; [right; lia|left; intro Z; apply I; split; [exact Z|lia]]|left; intro Z; apply I; split; [exact Z|lia]].
Qed.
(** the publication of Gubbins and Twu gives orders 25 to 29: in the table they are called 15 to 19 *)
Theorem C85_twu_refuted : ~ (forall n, In n twu_pairs -> exists f, make_J GubbinsTwu n = Val f).
Proof. intro H. destruct (H 27%nat) as [f F]; [unfold twu_pairs; rewrite in_seq; lia|]. destruct (C85_pairs 27) as (_ & _ & [(_ & N & _)|[_ E]]); [lia|]. congruence. Qed.
Theorem C85_triplets : forall k,
  ((In k luckas_triplets /\ exists f, make_K Luckas k = Val f) \/ (~ In k luckas_triplets /\ make_K Luckas k = Err StdOutOfRange)) /\
  ((In k twu_triplets /\ exists f, make_K GubbinsTwu k = Val f) \/ (~ In k twu_triplets /\ make_K GubbinsTwu k = Err StdOutOfRange)) /\
  (((222 <= fst k <= 999)%nat /\ (222 <= snd k <= 999)%nat ->
    (In k gottschalk_triplets /\ exists f, make_K Gottschalk k = Val f) \/ (~ In k gottschalk_triplets /\ make_K Gottschalk k = Err StdOutOfRange)) /\
   (~ ((222 <= fst k <= 999)%nat /\ (222 <= snd k <= 999)%nat) -> make_K Gottschalk k = Err InvalidArgument)).
Proof.
  intro k. unfold make_K, at_key. split; [|split; [|split]].
  - destruct (first_in _ pair_eqb pair_eqb_iff luckas_K k) as [[I [v F]]|[I F]]; rewrite F; cbn [bind]; [left|right]; (split; [exact I|eauto]).
  - destruct (first_in _ pair_eqb pair_eqb_iff twu_K k) as [[I [v F]]|[I F]]; rewrite F; cbn [bind]; [left|right]; (split; [exact I|eauto]).
  - destruct k as [a b]. cbn [fst snd]. intros [Ha Hb].
    assert (D : forall i, (222 <= i <= 999)%nat -> int2key i = Val (digits i)) by (intros i Hi; unfold int2key; destruct (Nat.ltb i 222) eqn:A; [apply Nat.ltb_lt in A; lia|]; destruct (Nat.ltb 999 i) eqn:B; [apply Nat.ltb_lt in B; lia|reflexivity]).
    rewrite (D a Ha), (D b Hb). cbn [bind]. rewrite <- (gottschalk_keys a b Ha Hb).
    destruct (first_in _ key_eqb key_eqb_iff gottschalk_K (digits a, digits b)) as [[I [v F]]|[I F]]; rewrite F; cbn [bind]; [left|right]; (split; [exact I|eauto]).
  - destruct k as [a b]. cbn [fst snd]. intro H. unfold int2key. destruct (Nat.ltb a 222) eqn:A1; [reflexivity|]. destruct (Nat.ltb 999 a) eqn:A2; [reflexivity|]. cbn [bind]. destruct (Nat.ltb b 222) eqn:B1; [reflexivity|]. destruct (Nat.ltb 999 b) eqn:B2; [reflexivity|].
    apply Nat.ltb_ge in A1, A2, B1, B2. exfalso. apply H. lia.
Qed.
(** The integrals the contributions use are finite at every temperature and density; those of Gubbins
    and Twu have the sign of the integrals they stand for *)
Theorem C85_finite : forall fam T rho, 0 < T -> 0 <= rho ->
  (forall n, In n pair_orders -> exists v, the_J fam n T rho = Some v) /\ (forall k, In k triplet_orders -> exists v, the_K fam k T rho = Some v).
Proof.
  intros fam T rho HT Hr. split.
  - intros n Hn. destruct (C85_pairs n) as (PL & PG & _).
    assert (P4 : (4 <= n < 16)%nat) by (cbn in Hn; lia). unfold the_J. destruct fam.
    + destruct PL as [(_ & f & E)|(N & _)]; [|exfalso; apply N; unfold luckas_pairs; rewrite in_seq; lia]. revert E. unfold make_J. destruct (at_key Nat.eqb luckas_J n); [|discriminate]. intros _. apply luckas_J_fin; [lia|exact HT|exact Hr].
    + destruct (twu_pair_val n T rho Hn HT) as [E _]. unfold the_J in E. rewrite E. eauto.
    + destruct PG as [(_ & f & E)|(N & _)]; [|exfalso; apply N; unfold gottschalk_pairs; rewrite in_seq; lia]. revert E. unfold make_J. destruct (at_key Nat.eqb gottschalk_J n); [|discriminate]. intros _. unfold gottschalk_J_val. cbn [bind]. rewrite cdiv_nz by lra. cbn [opt_bind]. eauto.
  - intros k Hk. unfold the_K. destruct fam.
    + destruct (C85_triplets k) as ([(_ & f & E)|(N & _)] & _); [|exfalso; apply N; exact Hk]. revert E. unfold make_K. destruct (at_key pair_eqb luckas_K k); [|discriminate]. intros _. cbn [bind]. unfold luckas_K_val. eauto.
    + destruct (twu_triplet_val k T rho Hk HT) as [E _]. unfold the_K in E. rewrite E. eauto.
    + destruct (C85_triplets k) as (_ & _ & G & _). assert (In k gottschalk_triplets) by (cbn in Hk; cbv [gottschalk_triplets In]; tauto).
      destruct G as [(_ & f & E)|(N & _)]; [cbn in Hk; destruct Hk as [<-|[<-|[<-|[<-|[]]]]]; cbn [fst snd]; lia| |contradiction].
      revert E. unfold make_K. destruct (int2key (fst k)); [|discriminate]. cbn [bind]. destruct (int2key (snd k)); [|discriminate]. cbn [bind]. destruct (at_key key_eqb gottschalk_K _); [|discriminate]. intros _. cbn [bind]. unfold gottschalk_K_val. rewrite !cdiv_nz by lra. cbn [opt_bind]. eauto.
Qed.
Theorem C85_twu_signs : forall T rho, 0 < T ->
  (forall n, In n pair_orders -> exists v, the_J GubbinsTwu n T rho = Some v /\ 0 < v) /\ (forall k, In k triplet_orders -> exists v, the_K GubbinsTwu k T rho = Some v /\ 0 < sign k * v).
Proof. intros T rho HT. split; [intros n Hn; exists (twu_pair n T rho); now apply twu_pair_val|intros k Hk; exists (twu_triplet k T rho); now apply twu_triplet_val]. Qed.
(** Example: orders of Gubbins and Twu at reduced temperature 1 and density 0 are exp of their last
    coefficients *)
Example C85_twu_signs_met : the_J GubbinsTwu 6 1 0 = Some (exp (-0.538463)) /\ the_K GubbinsTwu (334, 445)%nat 1 0 = Some (- exp (-3.930928)).
Proof.
  unfold the_J, the_K, make_J, make_K, at_key. cbn [first twu_J twu_K Nat.eqb pair_eqb fst snd andb bind]. unfold twu_K_val, twu_val. rewrite clog_p by lra. rewrite ln_1. cbn [opt_bind]. split.
  - do 2 f_equal. unfold coef, val. cbn [nth dm de]. lra.
  - f_equal. unfold twu_sign. cbn [pair_eqb fst snd Nat.eqb andb]. match goal with |- -1 * exp ?u = _ => replace u with (-3.930928) end; [ring|]. unfold coef, val. cbn [nth dm de]. lra.
Qed.
(** The published forms of the integrals, in terms of the coefficients of an order *)
Theorem C85_forms : forall fam n f, make_J fam n = Val f -> exists c, forall T rho, 0 < T -> 0 < rho -> rho <> sqrt 2 ->
  match fam with
  | Luckas => f T rho = Some (exp (1 / (T + 4 / Rabs (ln (rho / sqrt 2)) ^ 3)) *
      (sumn 4 (fun j => c (3 * j)%nat * rho ^ j) + sumn 4 (fun j => c (3 * j + 1)%nat * rho ^ j) * Rpower T (0.3 + 0.05 * INR n) + sumn 4 (fun j => c (3 * j + 2)%nat * rho ^ j) * Rpower T (1 / INR n)))
  | GubbinsTwu => f T rho = Some (exp ((c 0%nat * ln T + c 1%nat) * rho ^ 2 + (c 2%nat * ln T + c 3%nat) * rho + c 4%nat * ln T + c 5%nat))
  | Gottschalk => f T rho = Some (sumn 5 (fun i => rho ^ i * (sumn 4 (fun j => c (4 * i + j)%nat * T ^ j) + exp (1 / T) * sumn 3 (fun j => c (20 + 3 * i + j)%nat * T ^ j))) ^ (n - 2))
  end.
Proof.
  intros fam n f E. unfold make_J in E. destruct fam.
  - destruct (C85_pairs n) as ([(I & _)|(_ & Z)] & _ & _); [|unfold make_J in Z; rewrite Z in E; discriminate]. destruct (at_key Nat.eqb luckas_J n) as [a|] eqn:A; [|discriminate]. injection E as <-. exists (coef a). intros T rho HT Hr N2.
    assert (Hn : (4 <= n)%nat) by (unfold luckas_pairs in I; rewrite in_seq in I; lia). assert (Pn : 0 < INR n) by (apply lt_0_INR; lia).
    unfold luckas_J_val. cbv zeta. rewrite cdiv_nz by lra. cbn [opt_bind].
    assert (CP : forall y, cpow T y = Some (Rpower T y)) by (intro y; unfold cpow; destruct (Req_EM_T T 0); [lra|]; destruct (Rlt_dec 0 T); [reflexivity|contradiction]). rewrite !CP. cbn [opt_bind].
    destruct (Req_EM_T rho 0) as [Z|Z]; [lra|]. assert (S2 : 0 < sqrt 2) by (apply sqrt_lt_R0; lra). rewrite clog_p by (apply Rdiv_lt_0_compat; lra). cbn [opt_bind].
    destruct (Req_EM_T (ln (rho / sqrt 2)) 0) as [Z'|Z'].
    { exfalso. apply N2. rewrite <- ln_1 in Z'. apply ln_inv in Z'; [|apply Rdiv_lt_0_compat; lra|lra]. replace rho with (rho / sqrt 2 * sqrt 2) by (field; lra). rewrite Z'. ring. }
    assert (P : 0 < Rabs (ln (rho / sqrt 2)) ^ 3) by (apply pow_lt, Rabs_pos_lt, Z'). rewrite cdiv_nz by lra. cbn [opt_bind].
    assert (0 < 4 / Rabs (ln (rho / sqrt 2)) ^ 3) by (apply Rdiv_lt_0_compat; lra). rewrite cdiv_nz by lra. cbn [opt_bind]. f_equal. cbn [sumn Nat.mul Nat.add pow]. ring.
  - destruct (at_key Nat.eqb twu_J n) as [a|] eqn:A; [|discriminate]. injection E as <-. exists (coef a). intros T rho HT Hr N2. unfold twu_val. rewrite clog_p by exact HT. cbn [opt_bind]. do 2 f_equal. ring.
  - destruct (at_key Nat.eqb gottschalk_J n) as [a|] eqn:A; [|discriminate]. injection E as <-. exists (coef a). intros T rho HT Hr N2. unfold gottschalk_J_val. rewrite cdiv_nz by lra. cbn [opt_bind]. do 2 f_equal. rewrite <- sumn_plus. apply sumn_ext. intros i _. cbn [sumn]. ring.
Qed.
Theorem C85_forms3 : forall fam k f, make_K fam k = Val f -> exists c, forall T rho, 0 < T ->
  match fam with
  | Luckas => f T rho = Some (let e := exp ((1 - rho / sqrt 2) ^ 4) in sumn 4 (fun j => rho ^ j * (c (4 * j)%nat + c (4 * j + 1)%nat * T + c (4 * j + 2)%nat * e ^ 2 + c (4 * j + 3)%nat * e ^ 3)))
  | GubbinsTwu => f T rho = Some (sign k * exp ((c 0%nat * ln T + c 1%nat) * rho ^ 2 + (c 2%nat * ln T + c 3%nat) * rho + c 4%nat * ln T + c 5%nat))
  | Gottschalk => f T rho = Some (let u := exp ((1 - rho / 3) / T) in let w := exp ((1 - rho / 3) ^ 2 / T) in
      sumn 4 (fun i => rho ^ i * (c (2 * i)%nat * u + c (2 * i + 1)%nat * u ^ 2)) + sumn 4 (fun i => rho ^ i * (c (8 + 2 * i)%nat * w + c (8 + 2 * i + 1)%nat * w ^ 2)) + sumn 6 (fun i => rho ^ i * sumn 4 (fun j => c (16 + 4 * i + j)%nat * T ^ j)))
  end.
Proof.
  intros fam k f E. unfold make_K in E. destruct fam.
  - destruct (at_key pair_eqb luckas_K k) as [a|] eqn:A; [|discriminate]. injection E as <-. exists (coef a). intros T rho HT. unfold luckas_K_val. f_equal. cbv zeta. cbn [sumn Nat.mul Nat.add pow]. ring.
  - destruct (C85_triplets k) as (_ & [(I & _)|(_ & Z)] & _); [|unfold make_K in Z; rewrite Z in E; discriminate]. destruct (at_key pair_eqb twu_K k) as [a|] eqn:A; [|discriminate]. injection E as <-. exists (coef a). intros T rho HT. unfold twu_K_val, twu_val. rewrite clog_p by exact HT. cbn [opt_bind]. f_equal.
    assert (Sk : twu_sign k = sign k) by (cbn in I; destruct I as [<-|[<-|[<-|[<-|[<-|[]]]]]]; reflexivity). rewrite Sk. do 2 f_equal. ring.
  - destruct (int2key (fst k)) as [k1|]; [|discriminate]. cbn [bind] in E. destruct (int2key (snd k)) as [k2|]; [|discriminate]. cbn [bind] in E. destruct (at_key key_eqb gottschalk_K _) as [a|] eqn:A; [|discriminate]. injection E as <-. exists (coef a). intros T rho HT. unfold gottschalk_K_val. rewrite !cdiv_nz by lra. cbn [opt_bind]. f_equal. replace ((1 - rho / 3) ^ 2) with ((1 - rho / 3) * (1 - rho / 3)) by ring. cbv zeta. cbn [sumn Nat.mul Nat.add pow]. ring.
Qed.

(** * The contribution *)
(** The constructor refuses arrays of moments whose sizes differ from that of the diameters *)
Theorem C85_constructor : forall sigma eps mu2 Q2 ap,
  (length mu2 = length sigma /\ length Q2 = length sigma /\ length eps = length sigma -> make_gtwu sigma eps mu2 Q2 ap = ok {| t_sigma := sigma; t_eps := eps; t_mu2 := mu2; t_Q2 := Q2; t_approach := ap |}) /\
  (length mu2 <> length sigma \/ length Q2 <> length sigma -> make_gtwu sigma eps mu2 Q2 ap = throws InvalidArgument).
Proof.
  intros. unfold make_gtwu. split.
  - intros (-> & -> & ->). rewrite Nat.eqb_refl, Nat.ltb_irrefl. reflexivity.
  - intros [H|H]; [apply not_eq_sym, Nat.eqb_neq in H; now rewrite H|]. destruct (negb (Nat.eqb (length sigma) (length mu2))); [reflexivity|]. apply not_eq_sym, Nat.eqb_neq in H. now rewrite H.
Qed.
(** an array of energies that is too short is not noticed *)
Theorem C85_constructor_refuted : exists sigma eps mu2 Q2, length eps <> length sigma /\ make_gtwu sigma eps mu2 Q2 use_packing_fraction = None.
Proof. exists [1; 1], [1], [0; 0], [0; 0]. split; [discriminate|reflexivity]. Qed.
(** Reduced densities *)
Theorem C85_rhostar : forall sigma rhoN eta x, (length x <= length sigma)%nat ->
  get_rhostar calculate_Gubbins_rhostar sigma rhoN eta x = ok (rhoN * sum2 (length x) (fun i => nth i x 0) (fun i j => mean_diameter sigma i j ^ 3)) /\
  get_rhostar use_packing_fraction sigma rhoN eta x = ok (6 * eta / PI) /\
  get_rhostar kInvalid sigma rhoN eta x = throws InvalidArgument.
Proof.
  intros sigma rhoN eta x L. unfold get_rhostar. apply Nat.ltb_ge in L. rewrite L. repeat split.
  - unfold ok. do 3 f_equal. unfold sum2. apply sumn_ext. intros i _. apply sumn_ext. intros j _. unfold POW3, POW2, mean_diameter. ring.
  - unfold ok. do 2 f_equal. pose proof PI_RGT_0. field. lra.
Qed.
(** for a pure fluid both are the number of molecules in a cube of the diameter *)
Theorem C85_rhostar_pure : forall s rhoN, get_rhostar calculate_Gubbins_rhostar [s] rhoN 0 [1] = ok (rhoN * s ^ 3) /\ get_rhostar use_packing_fraction [s] rhoN (PI / 6 * rhoN * s ^ 3) [1] = ok (rhoN * s ^ 3).
Proof. intros s rhoN. destruct (C85_rhostar [s] rhoN 0 [1] ltac:(cbn; lia)) as [-> _]. destruct (C85_rhostar [s] rhoN (PI / 6 * rhoN * s ^ 3) [1] ltac:(cbn; lia)) as (_ & -> & _). unfold sum2, mean_diameter. cbn. pose proof PI_RGT_0. split; unfold ok; do 2 f_equal; field; lra. Qed.

Definition proper (g : gtwu) (N : nat) : Prop :=
  (N <= length (t_sigma g))%nat /\
  forall i, (i < N)%nat -> 0 < nth i (t_sigma g) 0 /\ 0 < nth i (t_eps g) 0 /\ 0 <= nth i (t_mu2 g) 0 /\ 0 <= nth i (t_Q2 g) 0.
Definition second (g : gtwu) (T rhoN : R) (x : list R) (Jv : nat -> nat -> nat -> R) : R :=
  order2 (length x) (fun i => nth i x 0) (dipole (t_sigma g) (t_eps g) (t_mu2 g) T) (quadrupole (t_sigma g) (t_eps g) (t_Q2 g) T) none (mean_diameter (t_sigma g)) Jv rhoN.
Definition third (g : gtwu) (T rhoN : R) (x : list R) (Jv : nat -> nat -> nat -> R) (V : nat * nat -> nat -> nat -> R) : R :=
  order3 (length x) (fun i => nth i x 0) (dipole (t_sigma g) (t_eps g) (t_mu2 g) T) (quadrupole (t_sigma g) (t_eps g) (t_Q2 g) T) none none (mean_diameter (t_sigma g)) Jv (triplet V) rhoN 1 1.
(** No moments: no contribution, in every state *)
Theorem C85_nonpolar : forall J K g T rhoN rs x, (length x <= length (t_sigma g))%nat -> (forall i, nth i (t_mu2 g) 0 = 0) -> (forall i, nth i (t_Q2 g) 0 = 0) ->
  gt_eval J K g T rhoN rs x = Some {| r_alpha2 := 0; r_alpha3 := 0; r_alpha := 0 |}.
Proof.
  intros J K g T rhoN rs x L M Q. unfold gt_eval. apply Nat.ltb_ge in L. rewrite L.
  assert (H : has_polar (t_mu2 g) (t_Q2 g) = false) by (apply has_polar_false; split; apply Forall_forall; intros v I; apply (In_nth _ _ 0) in I; destruct I as (i & _ & <-); auto). now rewrite H.
Qed.
(** The terms of second and third order are those of the theory and the contribution is their Pade
    approximant; it is not finite when the term of second order is zero *)
Theorem C85_formula : forall J K g T rhoN rs x Jv V, 0 < T -> proper g (length x) -> J_at J (length x) (reduced_T T (t_eps g)) rs Jv -> K_at K (length x) (reduced_T T (t_eps g)) rs V ->
  gt_alpha2 J g T rhoN rs x = Some (second g T rhoN x Jv) /\ gt_alpha3 J K g T rhoN rs x = Some (third g T rhoN x Jv V) /\
  ((exists i, nth i (t_mu2 g) 0 <> 0 \/ nth i (t_Q2 g) 0 <> 0) ->
   (second g T rhoN x Jv <> 0 -> third g T rhoN x Jv V <> second g T rhoN x Jv ->
      gt_eval J K g T rhoN rs x = Some {| r_alpha2 := second g T rhoN x Jv; r_alpha3 := third g T rhoN x Jv V; r_alpha := pade (second g T rhoN x Jv) (third g T rhoN x Jv V) |}) /\
   (second g T rhoN x Jv = 0 \/ third g T rhoN x Jv V = second g T rhoN x Jv -> gt_eval J K g T rhoN rs x = None)).
Proof.
  intros J K g T rhoN rs x Jv V HT [L P] HJ HK.
  assert (E2 : gt_alpha2 J g T rhoN rs x = Some (second g T rhoN x Jv)) by (apply (alpha2_val J g T rhoN rs x Jv); auto; intros i Hi; now apply P).
  assert (E3 : gt_alpha3 J K g T rhoN rs x = Some (third g T rhoN x Jv V)) by (apply (alpha3_val J K g T rhoN rs x Jv V); auto; intros i Hi; now apply P).
  split; [exact E2|]. split; [exact E3|]. intros [i Hi]. unfold gt_eval. apply Nat.ltb_ge in L. rewrite L.
  assert (H : has_polar (t_mu2 g) (t_Q2 g) = true). { destruct (has_polar _ _) eqn:H; [reflexivity|]. apply has_polar_false in H. destruct H as [H1 H2]. rewrite (zero_nth _ i H1), (zero_nth _ i H2) in Hi. exfalso; destruct Hi; lra. }
  rewrite H, E2, E3. cbn [opt_bind]. set (a2 := second g T rhoN x Jv). set (a3 := third g T rhoN x Jv V).
  assert (Q : a2 <> 0 -> (1 - a3 / a2 = 0 <-> a3 = a2)). { intro N. split; intro Z; [|rewrite Z; field; exact N]. assert (a3 / a2 = 1) by lra. rewrite <- (Rmult_1_l a2), <- H0. field. exact N. }
  split.
  - intros N2 N3. rewrite cdiv_nz by exact N2. cbn [opt_bind]. rewrite cdiv_nz by (rewrite Q by exact N2; exact N3). reflexivity.
  - intros [Z|Z].
    + rewrite Z. unfold cdiv at 1. destruct (Req_EM_T 0 0); [reflexivity|lra].
    + destruct (Req_dec a2 0) as [Z2|Z2]; [rewrite Z2; unfold cdiv at 1; destruct (Req_EM_T 0 0); [reflexivity|lra]|]. rewrite cdiv_nz by exact Z2. cbn [opt_bind]. apply Q in Z; [|exact Z2]. unfold cdiv. rewrite Z. destruct (Req_EM_T 0 0); [reflexivity|lra].
Qed.
(** With the integrals of Gubbins and Twu: finite at every temperature and density as soon as a polar
    component is present, attractive, and reduced by the third order *)
Lemma twu_at : forall g T rs N, 0 < T -> proper g N -> (forall i j, (i < N)%nat -> (j < N)%nat -> 0 < reduced_T T (t_eps g) i j) /\
  J_at (the_J GubbinsTwu) N (reduced_T T (t_eps g)) rs (fun n i j => twu_pair n (reduced_T T (t_eps g) i j) rs) /\ K_at (the_K GubbinsTwu) N (reduced_T T (t_eps g)) rs (fun k i j => twu_triplet k (reduced_T T (t_eps g) i j) rs).
Proof.
  intros g T rs N HT [L P].
  assert (Tp : forall i j, (i < N)%nat -> (j < N)%nat -> 0 < reduced_T T (t_eps g) i j). { intros i j Hi Hj. unfold reduced_T. apply Rdiv_lt_0_compat; [exact HT|]. apply sqrt_lt_R0, Rmult_lt_0_compat; [apply (P i Hi)|apply (P j Hj)]. }
  split; [exact Tp|]. split; [now apply twu_J_at|now apply twu_K_at].
Qed.
Definition has_polar_part (g : gtwu) (x : list R) : Prop := exists i, (i < length x)%nat /\ 0 < nth i x 0 /\ (0 < nth i (t_mu2 g) 0 \/ 0 < nth i (t_Q2 g) 0).
Lemma sign_terms : forall g T rhoN x Jv V, 0 < T -> 0 < rhoN -> proper g (length x) -> (forall i, (i < length x)%nat -> 0 <= nth i x 0) -> has_polar_part g x ->
  (forall n i j, In n pair_orders -> (i < length x)%nat -> (j < length x)%nat -> 0 < Jv n i j) -> second g T rhoN x Jv < 0 /\ 0 <= third g T rhoN x Jv V.
Proof.
  intros g T rhoN x Jv V HT Hr [L P] Hx (i & Hi & Xi & Mi) HJ.
  assert (Sg : forall i, (i < length x)%nat -> 0 < nth i (t_sigma g) 0) by (intros; now apply P). assert (Ep : forall i, (i < length x)%nat -> 0 < nth i (t_eps g) 0) by (intros; now apply P). assert (Mu : forall i, (i < length x)%nat -> 0 <= nth i (t_mu2 g) 0) by (intros; now apply P). assert (Qu : forall i, (i < length x)%nat -> 0 <= nth i (t_Q2 g) 0) by (intros; now apply P).
  assert (Sm : forall i j, (i < length x)%nat -> (j < length x)%nat -> 0 < mean_diameter (t_sigma g) i j) by (intros; now apply (Sp g x)).
  assert (An : forall i, (i < length x)%nat -> 0 <= dipole (t_sigma g) (t_eps g) (t_mu2 g) T i) by (intros; now apply (a_nonneg g T x)).
  split.
  - unfold second. apply (order2_neg _ _ _ _ _ _ Jv V rhoN) with (i := i); auto; [intros; unfold none; lra|].
    destruct Mi as [M|M].
    + left. unfold dipole. apply Rmult_lt_0_compat; [apply Rmult_lt_0_compat; [apply pow_lt; now apply Sg|exact M]|apply Rdiv_lt_0_compat; [now apply Ep|exact HT]].
    + right. apply Rgt_not_eq. unfold quadrupole. apply sqrt_lt_R0. apply Rmult_lt_0_compat; [apply Rmult_lt_0_compat; [apply pow_lt; now apply Sg|exact M]|apply Rdiv_lt_0_compat; [now apply Ep|exact HT]].
  - unfold third. apply order3_nn; auto; try lra; [intros; unfold none; lra|intros; apply sqrt_pos].
Qed.
Theorem C85_attractive : forall g T rhoN rs x, 0 < T -> 0 < rhoN -> proper g (length x) -> (forall i, (i < length x)%nat -> 0 <= nth i x 0) -> has_polar_part g x ->
  exists t, gt_eval (the_J GubbinsTwu) (the_K GubbinsTwu) g T rhoN rs x = Some t /\ r_alpha2 t < 0 /\ 0 <= r_alpha3 t /\ r_alpha2 t <= r_alpha t < 0.
Proof.
  intros g T rhoN rs x HT Hr Pg Hx Hp. destruct (twu_at g T rs (length x) HT Pg) as (Tp & HJ & HK).
  destruct (C85_formula _ _ g T rhoN rs x _ _ HT Pg HJ HK) as (_ & _ & F).
  destruct (sign_terms g T rhoN x (fun n i j => twu_pair n (reduced_T T (t_eps g) i j) rs) (fun k i j => twu_triplet k (reduced_T T (t_eps g) i j) rs) HT Hr Pg Hx Hp) as [N2 N3]; [intros; apply twu_pair_val; auto|].
  destruct F as [F _]; [destruct Hp as (i & _ & _ & [M|M]); exists i; [left|right]; lra|]. eexists. split; [apply F; lra|]. cbn [r_alpha2 r_alpha3 r_alpha]. split; [exact N2|]. split; [exact N3|]. now apply pade_between.
Qed.
(** but not at zero density, and not when the polar components are absent *)
Theorem C85_vacuum_refuted : forall J K g T rs x Jv V, 0 < T -> proper g (length x) -> J_at J (length x) (reduced_T T (t_eps g)) rs Jv -> K_at K (length x) (reduced_T T (t_eps g)) rs V ->
  (exists i, nth i (t_mu2 g) 0 <> 0 \/ nth i (t_Q2 g) 0 <> 0) -> gt_eval J K g T 0 rs x = None.
Proof. intros J K g T rs x Jv V HT Pg HJ HK E. destruct (C85_formula J K g T 0 rs x Jv V HT Pg HJ HK) as (_ & _ & F). destruct (F E) as [_ F']. apply F'. left. unfold second, order2. ring. Qed.
Theorem C85_absent_refuted : forall J K g T rhoN rs x Jv V, 0 < T -> proper g (length x) -> J_at J (length x) (reduced_T T (t_eps g)) rs Jv -> K_at K (length x) (reduced_T T (t_eps g)) rs V ->
  (exists i, nth i (t_mu2 g) 0 <> 0 \/ nth i (t_Q2 g) 0 <> 0) -> (forall i, (i < length x)%nat -> nth i x 0 = 0 \/ nth i (t_mu2 g) 0 = 0 /\ nth i (t_Q2 g) 0 = 0) ->
  gt_eval J K g T rhoN rs x = None.
Proof.
  intros J K g T rhoN rs x Jv V HT Pg HJ HK E A. destruct (C85_formula J K g T rhoN rs x Jv V HT Pg HJ HK) as (_ & _ & F). destruct (F E) as [_ F']. apply F'. left. unfold second, order2.
  replace (sum2 _ _ _) with 0; [ring|]. symmetry. unfold sum2. apply sumn_0. intros i Hi. apply sumn_0. intros j Hj. destruct (A i Hi) as [Z|[Z1 Z2]]; [rewrite Z; ring|]. destruct (A j Hj) as [Z|[Z3 Z4]]; [rewrite Z; ring|].
  unfold zz, dipole, quadrupole, none. rewrite Z1, Z2, Z3, Z4. rewrite !Rmult_0_r, !Rmult_0_l, sqrt_0. unfold Rdiv. ring.
Qed.
(** ** Low density: of the order of the density *)
Lemma twu_bound : forall n T rs, In n pair_orders -> 0 < T -> 0 <= rs <= 1 -> exists M, forall rs, 0 <= rs <= 1 -> twu_pair n T rs <= M.
Proof.
  intros n T rs Hn HT Hrs. cbn in Hn. destruct Hn as [<-|[<-|[<-|[<-|[<-|[<-|[]]]]]]]; unfold twu_pair; cbn [first twu_J Nat.eqb]; unfold twu_val; rewrite clog_p by exact HT; cbn [opt_bind];
    match goal with |- context [coef ?a 0] => generalize (coef a 0) (coef a 1) (coef a 2) (coef a 3) (coef a 4) (coef a 5) end; intros c0 c1 c2 c3 c4 c5;
    exists (exp (Rabs (c0 * ln T) + Rabs c1 + Rabs (c2 * ln T) + Rabs c3 + c4 * ln T + c5)); intros r Hr;
    (assert (B : c0 * r * r * ln T + c1 * r * r + c2 * r * ln T + c3 * r + c4 * ln T + c5 <= Rabs (c0 * ln T) + Rabs c1 + Rabs (c2 * ln T) + Rabs c3 + c4 * ln T + c5); [|destruct B as [B|B]; [left; now apply exp_increasing|right; now rewrite B]]);
    (assert (A : forall u w, 0 <= w <= 1 -> u * w <= Rabs u) by (intros u w Hw; pose proof (Rle_abs u); pose proof (Rabs_pos u); nra)); (assert (0 <= r * r <= 1) by nra);
    pose proof (A (c0 * ln T) (r * r) ltac:(assumption)); pose proof (A c1 (r * r) ltac:(assumption)); pose proof (A (c2 * ln T) r Hr); pose proof (A c3 r Hr); nra.
Qed.
Lemma fin_bound : forall (P : nat -> R -> Prop) N, (forall i, (i < N)%nat -> exists M, P i M) -> (forall i M M', P i M -> M <= M' -> P i M') -> exists M, forall i, (i < N)%nat -> P i M.
Proof.
  intros P N. induction N; intros H Mo; [exists 0; intros; lia|]. destruct IHN as [M1 H1]; [intros; apply H; lia|exact Mo|]. destruct (H N ltac:(lia)) as [M2 H2].
  exists (Rmax M1 M2). intros i Hi. destruct (Nat.eq_dec i N) as [->|E]; [apply (Mo _ M2); [exact H2|apply Rmax_r]|apply (Mo _ M1); [apply H1; lia|apply Rmax_l]].
Qed.
Theorem C85_low_density : forall g T x, 0 < T -> proper g (length x) -> (forall i, (i < length x)%nat -> 0 <= nth i x 0) -> has_polar_part g x ->
  exists C, forall rhoN rs, 0 < rhoN -> 0 <= rs <= 1 -> exists t, gt_eval (the_J GubbinsTwu) (the_K GubbinsTwu) g T rhoN rs x = Some t /\ Rabs (r_alpha t) <= C * rhoN.
Proof.
  intros g T x HT Pg Hx Hp. pose proof (twu_at g T 0 (length x) HT Pg) as (Tp & _ & _).
  set (h := fun rs i j => 4 * PI * (3 / 2 * (zz (dipole (t_sigma g) (t_eps g) (t_mu2 g) T) none i * zz (dipole (t_sigma g) (t_eps g) (t_mu2 g) T) none j - none i * none j) * twu_pair 6 (reduced_T T (t_eps g) i j) rs / mean_diameter (t_sigma g) i j ^ 3
     + 3 / 2 * zz (dipole (t_sigma g) (t_eps g) (t_mu2 g) T) none i * quadrupole (t_sigma g) (t_eps g) (t_Q2 g) T j ^ 2 * twu_pair 8 (reduced_T T (t_eps g) i j) rs / mean_diameter (t_sigma g) i j ^ 5
     + 7 / 10 * quadrupole (t_sigma g) (t_eps g) (t_Q2 g) T i ^ 2 * quadrupole (t_sigma g) (t_eps g) (t_Q2 g) T j ^ 2 * twu_pair 10 (reduced_T T (t_eps g) i j) rs / mean_diameter (t_sigma g) i j ^ 7)).
  assert (S : forall rhoN rs, second g T rhoN x (fun n i j => twu_pair n (reduced_T T (t_eps g) i j) rs) = - rhoN * sum2 (length x) (fun i => nth i x 0) (h rs)) by reflexivity.
  assert (B : forall i j, (i < length x)%nat -> (j < length x)%nat -> exists M, forall rs, 0 <= rs <= 1 -> nth i x 0 * nth j x 0 * h rs i j <= M).
  { intros i j Hi Hj. destruct (twu_bound 6 (reduced_T T (t_eps g) i j) 0) as [M6 B6]; [cbn; tauto|now apply Tp|lra|]. destruct (twu_bound 8 (reduced_T T (t_eps g) i j) 0) as [M8 B8]; [cbn; tauto|now apply Tp|lra|]. destruct (twu_bound 10 (reduced_T T (t_eps g) i j) 0) as [M10 B10]; [cbn; tauto|now apply Tp|lra|].
    pose proof Pg as [L P]. assert (Sm : 0 < mean_diameter (t_sigma g) i j) by (unfold mean_diameter; pose proof (P i Hi); pose proof (P j Hj); lra).
    assert (An : forall i, (i < length x)%nat -> 0 <= dipole (t_sigma g) (t_eps g) (t_mu2 g) T i) by (intros; apply (a_nonneg g T x); auto; intros; now apply P).
    set (c6 := nth i x 0 * nth j x 0 * (4 * PI) * (3 / 2) * (zz (dipole (t_sigma g) (t_eps g) (t_mu2 g) T) none i * zz (dipole (t_sigma g) (t_eps g) (t_mu2 g) T) none j - none i * none j) / mean_diameter (t_sigma g) i j ^ 3).
    set (c8 := nth i x 0 * nth j x 0 * (4 * PI) * (3 / 2) * zz (dipole (t_sigma g) (t_eps g) (t_mu2 g) T) none i * quadrupole (t_sigma g) (t_eps g) (t_Q2 g) T j ^ 2 / mean_diameter (t_sigma g) i j ^ 5).
    set (c10 := nth i x 0 * nth j x 0 * (4 * PI) * (7 / 10) * quadrupole (t_sigma g) (t_eps g) (t_Q2 g) T i ^ 2 * quadrupole (t_sigma g) (t_eps g) (t_Q2 g) T j ^ 2 / mean_diameter (t_sigma g) i j ^ 7).
    exists (Rabs c6 * Rabs M6 + Rabs c8 * Rabs M8 + Rabs c10 * Rabs M10). intros rs Hrs.
    assert (E : nth i x 0 * nth j x 0 * h rs i j = c6 * twu_pair 6 (reduced_T T (t_eps g) i j) rs + c8 * twu_pair 8 (reduced_T T (t_eps g) i j) rs + c10 * twu_pair 10 (reduced_T T (t_eps g) i j) rs) by (unfold h, c6, c8, c10, Rdiv; ring).
    rewrite E. assert (A : forall c v M, 0 < v -> v <= M -> c * v <= Rabs c * Rabs M). { intros c v M Hv HM. pose proof (Rle_abs c). pose proof (Rle_abs M). pose proof (Rabs_pos c). apply Rle_trans with (Rabs c * v); [apply Rmult_le_compat_r; lra|apply Rmult_le_compat_l; lra]. }
    pose proof (A c6 (twu_pair 6 (reduced_T T (t_eps g) i j) rs) M6 ltac:(apply twu_pair_val; [cbn; tauto|now apply Tp]) ltac:(now apply B6)).
    pose proof (A c8 (twu_pair 8 (reduced_T T (t_eps g) i j) rs) M8 ltac:(apply twu_pair_val; [cbn; tauto|now apply Tp]) ltac:(now apply B8)).
    pose proof (A c10 (twu_pair 10 (reduced_T T (t_eps g) i j) rs) M10 ltac:(apply twu_pair_val; [cbn; tauto|now apply Tp]) ltac:(now apply B10)). lra. }
  assert (B1 : exists M, forall i, (i < length x)%nat -> forall j, (j < length x)%nat -> forall rs, 0 <= rs <= 1 -> nth i x 0 * nth j x 0 * h rs i j <= M).
  { apply (fin_bound (fun i M => forall j, (j < length x)%nat -> forall rs, 0 <= rs <= 1 -> nth i x 0 * nth j x 0 * h rs i j <= M)); [|intros i M M' H HM j Hj rs Hrs; specialize (H j Hj rs Hrs); lra].
    intros i Hi. apply (fin_bound (fun j M => forall rs, 0 <= rs <= 1 -> nth i x 0 * nth j x 0 * h rs i j <= M)); [intros j Hj; now apply B|intros j M M' H HM rs Hrs; specialize (H rs Hrs); lra]. }
  destruct B1 as [M B1]. exists (sumn (length x) (fun _ => sumn (length x) (fun _ => M))). intros rhoN rs Hr Hrs.
  destruct (C85_attractive g T rhoN rs x HT Hr Pg Hx Hp) as (t & E & N2 & N3 & N4). exists t. split; [exact E|].
  destruct (twu_at g T rs (length x) HT Pg) as (_ & HJ & HK). destruct (C85_formula _ _ g T rhoN rs x _ _ HT Pg HJ HK) as (E2 & _ & _). rewrite S in E2.
  assert (R2 : r_alpha2 t = - rhoN * sum2 (length x) (fun i => nth i x 0) (h rs)).
  { revert E. unfold gt_eval. destruct (Nat.ltb _ _); [discriminate|]. destruct (has_polar _ _); [|intro E; injection E as <-; cbn [r_alpha2] in N2; lra]. rewrite E2. cbn [opt_bind]. destruct (gt_alpha3 _ _ _ _ _ _ _) as [a3|]; [|discriminate]. cbn [opt_bind]. destruct (cdiv a3 _) as [q|]; [|discriminate]. cbn [opt_bind]. destruct (cdiv _ (1 - q)) as [al|]; [|discriminate]. cbn [opt_bind]. intro E. injection E as <-. reflexivity. }
  assert (U : sum2 (length x) (fun i => nth i x 0) (h rs) <= sumn (length x) (fun _ => sumn (length x) (fun _ => M))) by (unfold sum2; apply sumn_le; intros i Hi; apply sumn_le; intros j Hj; now apply B1).
  rewrite Rabs_left by apply N4. apply Rle_trans with (- r_alpha2 t); [lra|]. rewrite R2. nra.
Qed.
(** ** Components: order, splitting and absent components do not matter *)
Definition pick_gtwu (r : list nat) (g : gtwu) : gtwu :=
  {| t_sigma := pick 0 r (t_sigma g); t_eps := pick 0 r (t_eps g); t_mu2 := pick 0 r (t_mu2 g); t_Q2 := pick 0 r (t_Q2 g); t_approach := t_approach g |}.
Lemma nth_pick : forall r (l : list R) i, (i < length r)%nat -> nth i (pick 0 r l) 0 = nth (nth i r O) l 0.
Proof. intros r l i Hi. unfold pick. rewrite (nth_indep _ 0 (nth O l 0)) by (rewrite map_length; exact Hi). now rewrite (map_nth (fun k => nth k l 0) r O i). Qed.
Theorem C85_components : forall J K r x' x g T rhoN rs Jv V t, lumped r x' x -> 0 < T -> proper g (length x) -> J_at J (length x) (reduced_T T (t_eps g)) rs Jv -> K_at K (length x) (reduced_T T (t_eps g)) rs V ->
  gt_eval J K g T rhoN rs x = Some t -> gt_eval J K (pick_gtwu r g) T rhoN rs x' = Some t.
Proof.
  intros J K r x' x g T rhoN rs Jv V t HL HT Pg HJ HK E. pose proof HL as (Lr & HI & _). pose proof (fun i => lumped_lt r x' x i HL) as LT. destruct Pg as [L P].
  assert (Lp : (length x' <= length (t_sigma (pick_gtwu r g)))%nat) by (cbn [pick_gtwu t_sigma]; unfold pick; rewrite map_length; lia).
  destruct (has_polar (t_mu2 g) (t_Q2 g)) eqn:H.
  2:{ apply has_polar_false in H. destruct H as [H1 H2]. rewrite C85_nonpolar in E by (assumption || (intro; now apply zero_nth)). rewrite C85_nonpolar; [exact E|exact Lp| |].
      all: intro i; cbn [pick_gtwu t_mu2 t_Q2]; (destruct (Nat.lt_ge_cases i (length r)) as [Hi|Hi]; [rewrite nth_pick by exact Hi; now apply zero_nth|apply nth_overflow; unfold pick; now rewrite map_length]). }
  assert (Ex : exists i, nth i (t_mu2 g) 0 <> 0 \/ nth i (t_Q2 g) 0 <> 0).
  { unfold has_polar in H. assert (Z : forall l, 0 < total_abs l -> exists i, nth i l 0 <> 0). { intros l Hl. destruct (Exists_dec (fun v => v <> 0) l (fun v => match Req_EM_T v 0 with left e => right (fun n => n e) | right n => left n end)) as [X|X]; [apply Exists_exists in X; destruct X as (v & I & Nv); apply (In_nth _ _ 0) in I; destruct I as (i & _ & <-); eauto|]. exfalso. assert (Z : total_abs l = 0); [|lra]. apply total_abs_0. apply Forall_forall. intros v I. destruct (Req_EM_T v 0) as [e|n]; [exact e|]. exfalso. apply X. apply Exists_exists. eauto. }
    destruct (Rlt_dec 0 (total_abs (t_mu2 g))) as [A|A]; [destruct (Z _ A) as [i Hi]; exists i; now left|]. destruct (Rlt_dec 0 (total_abs (t_Q2 g))) as [B|B]; [destruct (Z _ B) as [i Hi]; exists i; now right|discriminate]. }
  assert (Pg' : proper (pick_gtwu r g) (length x')). { split; [exact Lp|]. intros i Hi. cbn [pick_gtwu t_sigma t_eps t_mu2 t_Q2]. rewrite !nth_pick by lia. apply P. apply LT. lia. }
  set (Jv' := fun n i j => Jv n (nth i r O) (nth j r O)). set (V' := fun k i j => V k (nth i r O) (nth j r O)).
  assert (Tr : forall i j, (i < length r)%nat -> (j < length r)%nat -> reduced_T T (t_eps (pick_gtwu r g)) i j = reduced_T T (t_eps g) (nth i r O) (nth j r O)) by (intros i j Hi Hj; unfold reduced_T; cbn [pick_gtwu t_eps]; now rewrite !nth_pick by assumption).
  assert (HJ' : J_at J (length x') (reduced_T T (t_eps (pick_gtwu r g))) rs Jv') by (intros n i j Hn Hi Hj; rewrite Tr by lia; apply HJ; [exact Hn|apply LT; lia|apply LT; lia]).
  assert (HK' : K_at K (length x') (reduced_T T (t_eps (pick_gtwu r g))) rs V') by (intros n i j Hn Hi Hj; rewrite Tr by lia; apply HK; [exact Hn|apply LT; lia|apply LT; lia]).
  destruct (C85_formula J K g T rhoN rs x Jv V HT (conj L P) HJ HK) as (_ & _ & F). specialize (F Ex). destruct F as [F1 F2].
  destruct (C85_formula J K (pick_gtwu r g) T rhoN rs x' Jv' V' HT Pg' HJ' HK') as (_ & _ & F').
  assert (D1 : forall i, (i < length r)%nat -> dipole (t_sigma (pick_gtwu r g)) (t_eps (pick_gtwu r g)) (t_mu2 (pick_gtwu r g)) T i = dipole (t_sigma g) (t_eps g) (t_mu2 g) T (nth i r O)) by (intros i Hi; unfold dipole; cbn [pick_gtwu t_sigma t_eps t_mu2]; now rewrite !nth_pick by assumption).
  assert (D2 : forall i, (i < length r)%nat -> quadrupole (t_sigma (pick_gtwu r g)) (t_eps (pick_gtwu r g)) (t_Q2 (pick_gtwu r g)) T i = quadrupole (t_sigma g) (t_eps g) (t_Q2 g) T (nth i r O)) by (intros i Hi; unfold quadrupole; cbn [pick_gtwu t_sigma t_eps t_Q2]; now rewrite !nth_pick by assumption).
  assert (D3 : forall i j, (i < length r)%nat -> (j < length r)%nat -> mean_diameter (t_sigma (pick_gtwu r g)) i j = mean_diameter (t_sigma g) (nth i r O) (nth j r O)) by (intros i j Hi Hj; unfold mean_diameter; cbn [pick_gtwu t_sigma]; now rewrite !nth_pick by assumption).
  assert (S2 : second (pick_gtwu r g) T rhoN x' Jv' = second g T rhoN x Jv). { unfold second, order2. f_equal. apply (lump2 r x' x); [exact HL|]. intros i j Hi Hj. unfold zz, none, Jv'. rewrite !D1, !D2, !D3 by assumption. reflexivity. }
  assert (S3 : third (pick_gtwu r g) T rhoN x' Jv' V' = third g T rhoN x Jv V). { unfold third, order3. f_equal. f_equal; f_equal.
    - apply (lump2 r x' x); [exact HL|]. intros i j Hi Hj. unfold none, Jv'. rewrite !D1, !D2, !D3 by assumption. reflexivity.
    - apply (lump3 r x' x); [exact HL|]. intros i j k Hi Hj Hk. unfold zz, none, triplet, V'. rewrite !D1, !D2, !D3 by assumption. reflexivity. }
  rewrite S2, S3 in F'.
  assert (N2 : second g T rhoN x Jv <> 0) by (intro Z; rewrite F2 in E by (now left); discriminate). assert (N3 : third g T rhoN x Jv V <> second g T rhoN x Jv) by (intro Z; rewrite F2 in E by (now right); discriminate).
  assert (Ex' : exists i, nth i (t_mu2 (pick_gtwu r g)) 0 <> 0 \/ nth i (t_Q2 (pick_gtwu r g)) 0 <> 0).
  { destruct (has_polar (t_mu2 (pick_gtwu r g)) (t_Q2 (pick_gtwu r g))) eqn:H'.
    - unfold has_polar in H'. assert (Z : forall l, 0 < total_abs l -> exists i, nth i l 0 <> 0). { intros l Hl. destruct (Exists_dec (fun v => v <> 0) l (fun v => match Req_EM_T v 0 with left e => right (fun n => n e) | right n => left n end)) as [X|X]; [apply Exists_exists in X; destruct X as (v & I & Nv); apply (In_nth _ _ 0) in I; destruct I as (i & _ & <-); eauto|]. exfalso. assert (Z : total_abs l = 0); [|lra]. apply total_abs_0. apply Forall_forall. intros v I. destruct (Req_EM_T v 0) as [e|n]; [exact e|]. exfalso. apply X. apply Exists_exists. eauto. }
      destruct (Rlt_dec 0 (total_abs (t_mu2 (pick_gtwu r g)))) as [A|A]; [destruct (Z _ A) as [i Hi]; exists i; now left|]. destruct (Rlt_dec 0 (total_abs (t_Q2 (pick_gtwu r g)))) as [B|B]; [destruct (Z _ B) as [i Hi]; exists i; now right|discriminate].
    - exfalso. apply N2. apply has_polar_false in H'. destruct H' as [H1 H2]. rewrite <- S2. unfold second, order2. replace (sum2 _ _ _) with 0; [ring|]. symmetry. unfold sum2. apply sumn_0. intros i Hi. apply sumn_0. intros j Hj.
      unfold zz, dipole, quadrupole, none. rewrite (zero_nth _ i H1), (zero_nth _ i H2), (zero_nth _ j H1), (zero_nth _ j H2). rewrite !Rmult_0_r, !Rmult_0_l, sqrt_0. unfold Rdiv. ring. }
  destruct (F' Ex') as [G1 _]. rewrite (G1 N2 N3). rewrite <- (F1 N2 N3). exact E.
Qed.
(** Example: argon and a dipolar fluid, and the same with the dipolar fluid entered twice *)
Definition polar_pair : gtwu := {| t_sigma := [3e-10; 4e-10]; t_eps := [100; 200]; t_mu2 := [0; 1]; t_Q2 := [0; 1/2]; t_approach := use_packing_fraction |}.
Example C85_attractive_met : proper polar_pair 2 /\ has_polar_part polar_pair [1/2; 1/2] /\ lumped [0; 1; 1]%nat [1/2; 1/4; 1/4] [1/2; 1/2].
Proof.
  split; [|split].
  - split; [cbn; lia|]. intros i Hi. assert (D : i = 0%nat \/ i = 1%nat) by lia. destruct D as [-> | ->]; cbn; lra.
  - exists 1%nat. cbn. repeat split; [lia|lra|left; lra].
  - unfold lumped. split; [reflexivity|]. split; [intros i [<-|[<-|[<-|[]]]]; cbn; lia|]. intros k Hk. cbn [length] in Hk. assert (D : k = 0%nat \/ k = 1%nat) by lia. destruct D as [-> | ->]; cbn; lra.
Qed.
Example C85_absent_met : exists g x, proper g (length x) /\ (exists i, nth i (t_mu2 g) 0 <> 0 \/ nth i (t_Q2 g) 0 <> 0) /\ (forall i, (i < length x)%nat -> nth i x 0 = 0 \/ nth i (t_mu2 g) 0 = 0 /\ nth i (t_Q2 g) 0 = 0).
Proof.
  exists polar_pair, [1; 0]. split; [apply C85_attractive_met|]. split; [exists 1%nat; left; cbn; lra|]. intros i Hi. cbn [length] in Hi. assert (D : i = 0%nat \/ i = 1%nat) by lia. destruct D as [-> | ->]; cbn; [right|left]; auto.
Qed.
Print Assumptions C85_pairs.
Print Assumptions C85_twu_refuted.
Print Assumptions C85_triplets.
Print Assumptions C85_finite.
Print Assumptions C85_twu_signs.
Print Assumptions C85_forms.
Print Assumptions C85_forms3.
Print Assumptions C85_constructor.
Print Assumptions C85_constructor_refuted.
Print Assumptions C85_rhostar.
Print Assumptions C85_rhostar_pure.
Print Assumptions C85_nonpolar.
Print Assumptions C85_formula.
Print Assumptions C85_attractive.
Print Assumptions C85_vacuum_refuted.
Print Assumptions C85_absent_refuted.
Print Assumptions C85_low_density.
Print Assumptions C85_components.
