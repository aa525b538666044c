(** Proofs about the counting matrix, the association strengths and the energy. *)
From Coq Require Import Reals ZArith String List Bool Lia Lra.
From Verif Require Import Json_model Vec_spec Vec_proofs Cubic_model Terms_model Ideal_model Util_model Multi_model
  Assoc_model Assoc_spec Assoc_proofs Assoc_proofs2 Assoc_proofs3.
Import ListNotations.
Open Scope R_scope.

(** * The counting matrix *)
(** site [s] of component [i] may bond to site [t] of component [j] *)
Definition bonds (o : options) (i : nat) (s : string) (j : nat) (t : string) : bool :=
  (Nat.eqb (length (op_mask o)) 0 || negb (Nat.eqb i j) || nth i (op_mask o) false) &&
  (Nat.eqb (length (op_partners o)) 0 || match lookup s (op_partners o) with Some l => contains l t | None => false end).
Lemma get_DIJ_ok : forall d mols o a I J v, built d mols o a -> (I < total_distinct mols)%nat -> (J < total_distinct mols)%nat ->
  get_DIJ (as_mapper a) o I J = ok v ->
  v = if bonds o (comp_of mols I) (site_of mols I) (comp_of mols J) (site_of mols J)
      then occurrences (site_of mols J) (nth (comp_of mols J) mols []) else 0%nat.
Proof.
  intros d mols o a I J v B HI HJ H. unfold get_DIJ in H. rewrite (comp_site_ok _ _ _ _ _ B HI), (comp_site_ok _ _ _ _ _ B HJ) in H. cbn [obind ok fst snd] in H.
  rewrite (counts_ok _ _ _ _ _ B HJ) in H. cbn [fin] in H. unfold bonds.
  set (i := comp_of mols I) in *. set (j := comp_of mols J) in *. set (s := site_of mols I) in *. set (t := site_of mols J) in *.
  set (c := occurrences t (nth j mols [])) in *.
  assert (T : forall w, match op_partners o with [] => ok c | _ :: _ => match lookup s (op_partners o) with Some l => if contains l t then ok c else ok 0%nat | None => throws StdOutOfRange end end = ok w ->
      w = if (Nat.eqb (length (op_partners o)) 0 || match lookup s (op_partners o) with Some l => contains l t | None => false end) then c else 0%nat).
  { intros w Hw. destruct (op_partners o) as [|p ps]; [injection Hw as <-; reflexivity|]. cbn [length Nat.eqb orb].
    destruct (lookup s (p :: ps)) as [l|]; [|discriminate]. destruct (contains l t); injection Hw as <-; reflexivity. }
  destruct (op_mask o) as [|b bs]; [exact (T v H)|]. cbn [length Nat.eqb orb].
  destruct (Nat.eqb i j) eqn:E; cbn [negb orb].
  - destruct (nth_error (b :: bs) i) as [bi|] eqn:Eb; [|discriminate]. cbn [fin obind ok] in H.
    assert (Hb : nth i (b :: bs) false = bi) by (apply nth_error_nth; exact Eb). rewrite Hb. destruct bi; cbn [andb]; [exact (T v H)|]. injection H as <-. reflexivity.
  - exact (T v H).
Qed.
Lemma D_entries : forall d mols o a, built d mols o a -> length (as_D a) = total_distinct mols /\
  forall I J, (I < total_distinct mols)%nat -> (J < total_distinct mols)%nat ->
  nth J (nth I (as_D a) []) 0%nat =
    if bonds o (comp_of mols I) (site_of mols I) (comp_of mols J) (site_of mols J)
    then occurrences (site_of mols J) (nth (comp_of mols J) mols []) else 0%nat.
Proof.
  intros d mols o a B. pose proof (bt_D _ _ _ _ B) as H. unfold make_D in H.
  destruct (negb _ && negb _); [discriminate|]. destruct (built_n _ _ _ _ B) as (N1 & _). rewrite N1 in H.
  apply (omap_seq_inv []) in H. destruct H as [L H]. split; [exact L|]. intros I J HI HJ. specialize (H I HI). cbn [Nat.add] in H.
  apply (omap_seq_inv 0%nat) in H. destruct H as [_ H]. specialize (H J HJ). cbn [Nat.add] in H.
  now apply (get_DIJ_ok _ _ _ _ _ _ _ B HI HJ).
Qed.

(** * The association strengths of CR1 *)
Lemma Delta_CR1_ok : forall d T g i j, (i < length (cd_b d))%nat -> (j < length (cd_b d))%nat ->
  length (cd_eps d) = length (cd_b d) -> length (cd_beta d) = length (cd_b d) ->
  0 <= nth i (cd_beta d) 0 * nth j (cd_beta d) 0 -> T <> 0 ->
  Delta_CR1 d T g i j = Some (g * ((nth i (cd_b d) 0 + nth j (cd_b d) 0) / 2) * sqrt (nth i (cd_beta d) 0 * nth j (cd_beta d) 0) *
    (exp ((nth i (cd_eps d) 0 + nth j (cd_eps d) 0) / 2 / (R_CODATA2017 * T)) - 1) / N_A).
Proof.
  intros d T g i j Hi Hj L1 L2 Hb HT. unfold Delta_CR1.
  rewrite (nth_error_nth' (cd_b d) 0 Hi), (nth_error_nth' (cd_b d) 0 Hj), (nth_error_nth' (cd_eps d) 0), (nth_error_nth' (cd_eps d) 0),
    (nth_error_nth' (cd_beta d) 0), (nth_error_nth' (cd_beta d) 0) by (rewrite ?L1, ?L2; assumption). cbn [opt_bind].
  unfold csqrt. destruct (Rle_dec 0 _) as [_|N]; [|contradiction]. cbn [opt_bind]. unfold cdiv.
  destruct (Req_EM_T (R_CODATA2017 * T) 0) as [E|_]; [|reflexivity]. exfalso. apply Rmult_integral in E. unfold R_CODATA2017 in E. destruct E; [lra|contradiction].
Qed.
Lemma matrix_ok : forall n f (g : nat -> nat -> R), (forall i j, (i < n)%nat -> (j < n)%nat -> f i j = ok (g i j)) ->
  matrix n f = ok (map (fun i => map (g i) (seq 0 n)) (seq 0 n)).
Proof.
  intros n f g H. unfold matrix. apply (omap_seq_build _ (fun i => map (g i) (seq 0 n))). intros i Hi. cbn [Nat.add].
  apply (omap_seq_build _ (g i)). intros j Hj. cbn [Nat.add]. now apply H.
Qed.
Lemma mentry_map : forall n (g : nat -> nat -> R) i j, (i < n)%nat -> (j < n)%nat -> mentry (map (fun i => map (g i) (seq 0 n)) (seq 0 n)) i j = g i j.
Proof. intros n g i j Hi Hj. unfold mentry. rewrite (nth_map_seq0 [] (fun i => map (g i) (seq 0 n))) by exact Hi. now rewrite nth_map_seq0. Qed.
Definition CR1_strength (d : canonical) (T g : R) (i j : nat) : R :=
  g * ((nth i (cd_b d) 0 + nth j (cd_b d) 0) / 2) * sqrt (nth i (cd_beta d) 0 * nth j (cd_beta d) 0) *
  (exp ((nth i (cd_eps d) 0 + nth j (cd_eps d) 0) / 2 / (R_CODATA2017 * T)) - 1) / N_A.
Lemma get_Delta_CR1 : forall bc mols o a d T rho x g, built (Canonical d) mols o a -> op_rule o = CR1 ->
  length (cd_b d) = length mols -> length (cd_eps d) = length mols -> length (cd_beta d) = length mols -> length x = length mols ->
  (forall v, In v (cd_beta d) -> 0 <= v) -> T <> 0 ->
  radial_g (cd_radial d) (sumn (length x) (fun i => nth i x 0 * nth i (cd_b d) 0) * rho / 4) = Some g ->
  get_Delta bc a T rho x = ok (map (fun I => map (fun J => CR1_strength d T g (comp_of mols I) (comp_of mols J)) (seq 0 (total_distinct mols))) (seq 0 (total_distinct mols))).
Proof.
  intros bc mols o a d T rho x g B HR L1 L2 L3 L4 Hb HT Hg. unfold get_Delta.
  rewrite (bt_rule _ _ _ _ B), HR, (bt_data _ _ _ _ B), L1, L4, Nat.eqb_refl. cbn [negb]. rewrite L4 in Hg. rewrite Hg. cbn [fin obind ok].
  destruct (built_n _ _ _ _ B) as (_ & N2 & _). rewrite N2.
  apply (matrix_ok _ _ (fun I J => CR1_strength d T g (comp_of mols I) (comp_of mols J))). intros I J HI HJ.
  rewrite (comp_site_ok _ _ _ _ _ B HI), (comp_site_ok _ _ _ _ _ B HJ). cbn [obind ok fst].
  destruct (comp_of_lt mols I HI) as [C1 _]. destruct (comp_of_lt mols J HJ) as [C2 _].
  rewrite Delta_CR1_ok; [reflexivity|lia|lia|lia|lia| |exact HT].
  apply Rmult_le_pos; apply Hb, nth_In; lia.
Qed.
Lemma CR1_nonneg : forall d T g i j, 0 <= g -> 0 < T -> (forall v, In v (cd_b d) -> 0 <= v) -> (forall v, In v (cd_eps d) -> 0 <= v) ->
  0 <= CR1_strength d T g i j.
Proof.
  intros d T g i j Hg HT Hb He. unfold CR1_strength.
  assert (P : forall l k, (forall v, In v l -> 0 <= v) -> 0 <= nth k l 0).
  { intros l k H. destruct (Nat.lt_ge_cases k (length l)) as [L|L]; [apply H; now apply nth_In|rewrite nth_overflow by exact L; lra]. }
  pose proof (P _ i Hb). pose proof (P _ j Hb). pose proof (P _ i He). pose proof (P _ j He). pose proof N_A_pos.
  assert (RT : 0 < R_CODATA2017 * T) by (apply Rmult_lt_0_compat; [unfold R_CODATA2017; lra|exact HT]).
  assert (E : 1 <= exp ((nth i (cd_eps d) 0 + nth j (cd_eps d) 0) / 2 / (R_CODATA2017 * T))).
  { rewrite <- exp_0. assert (A : 0 <= (nth i (cd_eps d) 0 + nth j (cd_eps d) 0) / 2 / (R_CODATA2017 * T)) by (apply Rmult_le_pos; [lra|left; now apply Rinv_0_lt_compat]).
    destruct A as [A|A]; [left; now apply exp_increasing|right; now rewrite <- A]. }
  apply Rmult_le_pos; [|left; now apply Rinv_0_lt_compat].
  apply Rmult_le_pos; [|lra]. apply Rmult_le_pos; [|apply sqrt_pos]. apply Rmult_le_pos; lra.
Qed.

(** * The energy *)
Lemma osumo_ok : forall n f g, (forall i, (i < n)%nat -> f i = ok (g i)) -> osumo n f = ok (sumn n g).
Proof.
  induction n; intros f g H; cbn; [reflexivity|]. rewrite (IHn f g) by (intros; apply H; lia). cbn [obind ok]. rewrite H by lia. reflexivity.
Qed.
Lemma over_sites_zero : forall f l, over_sites (fun s => f s * INR (occurrences s [])) l = 0.
Proof. intros f l. induction l as [|a l IH]; cbn [over_sites]; [reflexivity|]. rewrite IH. change (occurrences a []) with 0%nat. change (INR 0) with 0. ring. Qed.
Lemma over_sites_ext : forall f g l, (forall s, In s l -> f s = g s) -> over_sites f l = over_sites g l.
Proof. intros f g l. induction l as [|a l IH]; intro H; cbn; [reflexivity|]. rewrite H by now left. rewrite IH; [reflexivity|]. intros. apply H. now right. Qed.
(** counting every distinct site as often as it occurs *)
Lemma over_distinct : forall f m l, NoDup l -> (forall s, In s m -> In s l) -> over_sites (fun s => f s * INR (occurrences s m)) l = over_sites f m.
Proof.
  intros f. induction m as [|t m IH]; intros l D H; [apply over_sites_zero|].
  assert (Ht : In t l) by (apply H; now left).
  cbn [over_sites]. rewrite <- (IH l D) by (intros; apply H; now right). clear IH H.
  induction l as [|a l IHl]; [destruct Ht|]. apply NoDup_cons_iff in D. destruct D as [Da Dl]. cbn [over_sites].
  destruct (string_dec t a) as [->|N].
  - assert (E1 : occurrences a (a :: m) = S (occurrences a m)) by (unfold occurrences; cbn; destruct (string_dec a a); congruence).
    rewrite E1, S_INR. rewrite (over_sites_ext (fun s => f s * INR (occurrences s (a :: m))) (fun s => f s * INR (occurrences s m)) l); [ring|].
    intros s Hs. do 2 f_equal. unfold occurrences. cbn. destruct (string_dec a s) as [->|_]; [contradiction|reflexivity].
  - assert (E1 : occurrences a (t :: m) = occurrences a m) by (unfold occurrences; cbn; destruct (string_dec t a); congruence).
    destruct Ht as [->|Ht]; [now destruct N|]. rewrite (IHl Dl Ht), E1. ring.
Qed.
Lemma over_sites_nth : forall f l, over_sites f l = sumn (length l) (fun j => f (nth j l EmptyString)).
Proof.
  intros f l. assert (A : forall n g, sumn (S n) g = g 0%nat + sumn n (fun j => g (S j))).
  { induction n; intro g; [cbn; ring|]. change (sumn (S (S n)) g) with (sumn (S n) g + g (S n)). rewrite IHn. cbn [sumn]. ring. }
  induction l as [|a l IH]; [reflexivity|]. cbn [length]. rewrite A. cbn [over_sites nth]. now rewrite IH.
Qed.
(** the non-bonded fraction of site [s] of component [i] *)
Definition siteX (a : association) (X : list R) (i : nat) (s : string) : R :=
  match mget cs_eqb (i, s) (to_siteid (as_mapper a)) with Some k => nth k X 0 | None => 0 end.
Lemma cc_find : forall mols i j c, (i <= j)%nat -> (c < distinct (nth (j - i) mols []))%nat -> exists k, nth_error (cc_layout mols i) k = Some (j, c).
Proof. intros mols i j c H1 H2. apply In_nth_error. apply cc_layout_in. tauto. Qed.
Lemma energy_ok : forall d mols o a X i, built d mols o a -> length X = total_distinct mols -> (forall v, In v X -> fraction v) -> (i < length mols)%nat ->
  osumo (nth i (N_unique_sites (as_mapper a)) 0%nat) (site_energy a X i) = ok (over_sites (fun s => bond_energy (siteX a X i s)) (nth i mols [])).
Proof.
  intros d mols o a X i B HX HF Hi.
  set (m := nth i mols []).
  assert (EU : nth i (N_unique_sites (as_mapper a)) 0%nat = distinct m).
  { rewrite (bt_mapper _ _ _ _ B). cbn [N_unique_sites mapper_of]. change 0%nat with (distinct []). apply map_nth. }
  rewrite EU. rewrite <- (over_distinct _ m (set_of m) (set_of_nodup m)) by (intros; now apply set_of_in).
  rewrite over_sites_nth, set_of_length. apply osumo_ok. intros j Hj. unfold site_energy.
  destruct (cc_find mols 0 i j) as [k Hk]; [lia|rewrite Nat.sub_0_r; exact Hj|].
  destruct (cc_at mols 0 k i j Hk) as (HL & _ & _). rewrite Nat.sub_0_r in HL. fold m in HL.
  assert (Hkn : (k < total_distinct mols)%nat) by (rewrite <- (layout_length mols 0); apply nth_error_Some; rewrite HL; discriminate).
  assert (G1 : mget cc_eqb (i, j) (CompCIndex_to_siteid (as_mapper a)) = Some k).
  { rewrite (bt_mapper _ _ _ _ B). apply get_cc; [apply cc_layout_nodup|now rewrite cc_layout_length, layout_length|exact Hk]. }
  rewrite G1. cbn [obind ok].
  assert (Hlt : (k < length X)%nat) by (rewrite HX; exact Hkn). rewrite (nth_error_nth' X 0 Hlt). cbn [fin obind ok].
  pose proof (HF (nth k X 0) (nth_In X 0 Hlt)) as [P1 P2]. unfold clog. destruct (Rlt_dec 0 (nth k X 0)) as [_|N]; [|lra]. cbn [fin obind ok].
  rewrite (counts_ok _ _ _ _ _ B Hkn). cbn [fin obind ok].
  pose proof (layout_nth mols k Hkn) as E2. rewrite HL in E2. injection E2 as E3 E4. rewrite <- E3, <- E4. fold m.
  assert (G2 : mget cs_eqb (i, nth j (set_of m) EmptyString) (to_siteid (as_mapper a)) = Some k).
  { rewrite (bt_mapper _ _ _ _ B). apply get_site; [apply layout_nodup|exact HL]. }
  unfold siteX. rewrite G2. unfold bond_energy. unfold ok. do 2 f_equal. f_equal. lra.
Qed.
Lemma bond_energy_le : forall X, fraction X -> bond_energy X <= 0.
Proof.
  intros X [H1 H2]. unfold bond_energy. pose proof (exp_ineq1_le (ln X)) as E. rewrite exp_ln in E by exact H1. 
  lra.
Qed.
