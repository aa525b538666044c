(** Names, components and low density in the GERG models. *)
From Coq Require Import Reals ZArith String List Lia Lra Bool Permutation.
From Coquelicot Require Import Coquelicot.
From Verif Require Import Json_model Vec_spec Vec_proofs Cubic_model Cubic_spec Terms_model Ideal_model Util_model Assoc_model Multi_proofs2.
From Verif Require Import GERG_tables GERG_reference GERG_model GERG_spec GERG_proofs GERG_proofs2.
Import ListNotations.
Local Open Scope R_scope.

(** * Names *)
Definition arg {A} (r : res A) : Prop := match r with Val _ => True | Err e => e = StdInvalidArgument end.
Lemma opt_res_arg : forall A (o : option A), arg (opt_res o). Proof. intros A [a|]; cbn; auto. Qed.
Lemma map_res_arg : forall A B (f : A -> res B) l, (forall a, In a l -> arg (f a)) -> arg (map_res f l).
Proof.
  intros A B f. induction l as [|a l IH]; intro H; cbn [map_res]; [exact Logic.I|]. pose proof (H a (or_introl eq_refl)) as Ha. destruct (f a); cbn [bind]; [|exact Ha]. specialize (IH (fun b Hb => H b (or_intror Hb))). destruct (map_res f l); cbn [bind]; auto.
Qed.
Lemma pairs_arg : forall B (f : string -> string -> res B) l, (forall a b, arg (f a b)) -> arg (pairs_res f l).
Proof.
  intros B f l H. induction l as [|a l IH]; cbn [pairs_res]; [exact Logic.I|]. pose proof (map_res_arg _ _ (f a) l (fun b _ => H a b)) as M. destruct (map_res (f a) l); cbn [bind]; auto.
Qed.
Lemma pairs_nodup : forall B (f : string -> string -> res B) l u, (forall a v, f a a <> Val v) -> pairs_res f l = Val u -> NoDup l.
Proof.
  intros B f l. induction l as [|a l IH]; intros u H E; [constructor|]. cbn [pairs_res] in E. destruct (map_res (f a) l) as [bs|] eqn:M; cbn [bind] in E; [|discriminate]. constructor; [|now apply (IH u H)].
  intro Ha. destruct (proj1 (map_res_all _ _ (f a) l) (ex_intro _ bs M) a Ha) as [v G]. exact (H a v G).
Qed.
Lemma assoc_in : forall A (l : list (string * A)) k v, assoc l k = Some v -> In k (map fst l).
Proof. induction l as [|[k' a] l IH]; intros k v E; cbn in *; [discriminate|]. destruct (String.eqb_spec k' k); [now left|]. right. eapply IH; eassumption. Qed.
Lemma assoc2_in : forall A (l : list ((string * string) * A)) a b v, assoc2 l a b = Some v -> In (a, b) (map fst l).
Proof. induction l as [|[[a' b'] w] l IH]; intros a b v E; cbn in *; [discriminate|]. destruct (String.eqb_spec a' a), (String.eqb_spec b' b); cbn in E; subst; try (right; eapply IH; eassumption). now left. Qed.
Definition mem (l : list string) (f : string) : bool := existsb (String.eqb f) l.
Lemma mem_in : forall l f, mem l f = true -> In f l.
Proof. intros l f H. unfold mem in H. apply existsb_exists in H as (g & Hg & E). apply String.eqb_eq in E as ->. exact Hg. Qed.
Lemma keys04 : forallb (mem names04) (map fst info04) = true. Proof. vm_compute. reflexivity. Qed.
Lemma keys08 : forallb (mem names08) (map fst info08 ++ map fst info04) = true. Proof. vm_compute. reflexivity. Qed.
Lemma noself : forallb (fun p => negb (String.eqb (fst p) (snd p))) (map fst bip04 ++ map fst bip08) = true. Proof. vm_compute. reflexivity. Qed.
Lemma known04 : forall f i, get_info04 f = Val i -> In f names04.
Proof. intros f i E. unfold get_info04 in E. destruct (assoc info04 f) as [v|] eqn:A; [|discriminate]. apply mem_in. apply (proj1 (forallb_forall _ _) keys04). eapply assoc_in; eassumption. Qed.
Lemma known08 : forall f i, get_info08 f = Val i -> In f names08.
Proof.
  intros f i E. unfold get_info08, get_info04 in E. apply mem_in. apply (proj1 (forallb_forall _ _) keys08). apply in_or_app. destruct (assoc info08 f) as [v|] eqn:A; [left; eapply assoc_in; eassumption|]. destruct (assoc info04 f) as [v|] eqn:B; [right; eapply assoc_in; eassumption|discriminate].
Qed.
Lemma noself_assoc2 : forall (l : list ((string * string) * bip)) a v, (forall p, In p (map fst l) -> In p (map fst bip04 ++ map fst bip08)) -> assoc2 l a a = Some v -> False.
Proof. intros l a v I E. apply assoc2_in in E. apply I in E. apply (proj1 (forallb_forall _ _) noself) in E. cbn in E. rewrite String.eqb_refl in E. discriminate. Qed.
Lemma self04 : forall a v, get_bip04 a a <> Val v.
Proof. intros a v. unfold get_bip04. destruct (assoc2 bip04 a a) eqn:E; [|discriminate]. apply noself_assoc2 in E; [contradiction|]. intros; apply in_or_app; now left. Qed.
Lemma self08 : forall a v, get_bip08 a a <> Val v.
Proof. intros a v. unfold get_bip08. destruct (assoc2 bip08 a a) eqn:E; [|apply self04]. apply noself_assoc2 in E; [contradiction|]. intros; apply in_or_app; now right. Qed.
Lemma get_dep_arg : forall a b, arg (get_dep a b).
Proof. intros. unfold get_dep. destruct (find _ _); [exact Logic.I|]. destruct (existsb _ _); cbn; auto. Qed.
Lemma get_pure04_arg : forall f, arg (get_pure04 f).
Proof. intro f. unfold get_pure04. destruct (assoc n_main04 f); [exact Logic.I|]. destruct (assoc n_mne04 f); [exact Logic.I|]. destruct (String.eqb f _); [exact Logic.I|]. destruct (String.eqb f _); [exact Logic.I|]. destruct (String.eqb f _); [exact Logic.I|]. destruct (String.eqb f _); cbn; auto. Qed.
Lemma get_pure08_arg : forall f, arg (get_pure08 f). Proof. intro f. unfold get_pure08. destruct (assoc n_main08 f); [exact Logic.I|apply get_pure04_arg]. Qed.
Section Names.
Variables (L : glib) (E : dlib) (t : tables) (all : list string).
Hypothesis St : stands L E.
Hypothesis Ck : check E t nothing all = true.
Hypothesis Known : forall f i, l_info L f = Val i -> In f all.
Hypothesis Self : forall a v, l_bip L a a <> Val v.
Hypothesis Parg : forall f, arg (l_pure L f).
Lemma fits_all : forall names, incl names all -> fits L (data_of t) names.
Proof. intros. apply (check_fits L E t nothing all St Ck); auto. Qed.
Lemma make_arg : forall names, arg (make_gres L names).
Proof.
  intro names. unfold make_gres. assert (A1 : arg (map_res (l_info L) names)). { apply map_res_arg. intros a _. rewrite (st_info _ _ St). apply opt_res_arg. }
  destruct (map_res (l_info L) names); cbn [bind]; [|exact A1]. assert (A2 : arg (pairs_res (l_bip L) names)). { apply pairs_arg. intros f1 f2. rewrite (st_bip _ _ St). apply opt_res_arg. }
  destruct (pairs_res (l_bip L) names); cbn [bind]; [|exact A2]. assert (A3 : arg (map_res (l_pure L) names)) by (apply map_res_arg; intros; apply Parg). destruct (map_res (l_pure L) names); cbn [bind]; [|exact A3].
  match goal with |- context [pairs_res ?f names] => assert (A4 : arg (pairs_res f names)) end.
  { apply pairs_arg. intros f1 f2. destruct (is0 _); [exact Logic.I|]. rewrite !(st_dep _ _ St). pose proof (get_dep_arg f1 f2) as D1. destruct (get_dep f1 f2); cbn [bind]; [|exact D1]. pose proof (get_dep_arg f2 f1) as D2. destruct (get_dep f2 f1); cbn [bind]; [exact Logic.I|exact D2]. }
  destruct (pairs_res _ names); cbn [bind]; [exact Logic.I|exact A4].
Qed.
Lemma make_needs : forall names m, make_gres L names = Val m -> incl names all /\ NoDup names.
Proof.
  intros names m H. unfold make_gres in H. destruct (map_res (l_info L) names) as [infos|] eqn:M; cbn [bind] in H; [|discriminate]. destruct (pairs_res (l_bip L) names) as [u|] eqn:P; cbn [bind] in H; [|discriminate]. split; [|exact (pairs_nodup _ _ _ _ Self P)].
  intros f Hf. assert (G : exists i, l_info L f = Val i). { apply (proj1 (map_res_all _ _ (l_info L) names)); eauto. } destruct G as [i G]. exact (Known f i G).
Qed.
Lemma make_iff : forall names, ((exists m, make_gres L names = Val m) <-> incl names all /\ NoDup names) /\ (~ (incl names all /\ NoDup names) -> make_gres L names = Err StdInvalidArgument).
Proof.
  intro names. assert (G : (exists m, make_gres L names = Val m) <-> incl names all /\ NoDup names).
  { split; [intros [m H]; exact (make_needs names m H)|]. intros [I ND]. destruct (make_ok L (data_of t) names (fits_all names I) ND) as (m & H & _). eauto. }
  split; [exact G|]. intro H. pose proof (make_arg names) as A. destruct (make_gres L names) as [m|e]; [|cbn in A; now subst]. contradiction H. apply G. eauto.
Qed.
End Names.

(** * Components *)
Lemma lsum_perm : forall A (f : A -> R) l l', Permutation l l' -> lsum f l = lsum f l'.
Proof. intros A f l l' H. unfold lsum. induction H; cbn [fold_right]; lra. Qed.
Lemma lsum_filter : forall A (f : A -> R) p l, (forall a, In a l -> p a = false -> f a = 0) -> lsum f l = lsum f (filter p l).
Proof. intros A f p l. induction l as [|a l IH]; intro H; [reflexivity|]. cbn [filter lsum fold_right]. fold (lsum f l). rewrite IH by (intros; apply H; auto; now right). destruct (p a) eqn:P; [reflexivity|]. rewrite (H a (or_introl eq_refl) P). apply Rplus_0_l. Qed.
Lemma sumn_pick : forall n r f, NoDup r -> (forall i, In i r -> (i < n)%nat) -> (forall i, (i < n)%nat -> ~ In i r -> f i = 0) -> sumn (length r) (fun k => f (nth k r O)) = sumn n f.
Proof.
  intros n r f ND Hr Z. replace (sumn n f) with (lsum f (seq 0 n)) by (rewrite <- (map_id (seq 0 n)) at 1; apply (lsum_seq nat f (fun i => i) n)). rewrite <- (lsum_seq nat f (fun k => nth k r O) (length r)).
  assert (Er : map (fun k => nth k r O) (seq 0 (length r)) = r). { apply (nth_ext _ _ O O); [now rewrite map_length, seq_length|]. rewrite map_length, seq_length. intros k Hk. rewrite (nth_indep _ O (nth O r O)) by (now rewrite map_length, seq_length). rewrite (map_nth (fun k => nth k r O) (seq 0 (length r)) O k), seq_nth by exact Hk. reflexivity. }
  rewrite Er. rewrite (lsum_filter _ f (fun i => existsb (Nat.eqb i) r) (seq 0 n)).
  - apply lsum_perm. apply NoDup_Permutation; [exact ND|apply NoDup_filter, seq_NoDup|]. intro i. rewrite filter_In, in_seq, existsb_exists. split.
    + intro H. split; [split; [lia|]; now apply Hr|]. exists i. split; [exact H|apply Nat.eqb_refl].
    + intros [_ (k & Hk & E)]. apply Nat.eqb_eq in E as ->. exact Hk.
  - intros i Hi P. apply Z; [apply in_seq in Hi; lia|]. intro H. assert (existsb (Nat.eqb i) r = true) by (apply existsb_exists; exists i; split; [exact H|apply Nat.eqb_refl]). congruence.
Qed.
Lemma pick_nth' : forall A (d : A) r l k, (k < length r)%nat -> nth k (pick d r l) d = nth (nth k r O) l d.
Proof. intros A d r l k H. unfold pick. rewrite (nth_indep _ d (nth O l d)) by (now rewrite map_length). exact (map_nth (fun i => nth i l d) r O k). Qed.
Section Pick.
Variables (D : gdata) (names : list string) (x : list R) (r : list nat).
Hypothesis ND : NoDup r.
Hypothesis Hr : forall i, In i r -> (i < length names)%nat.
Hypothesis Z : forall i, (i < length names)%nat -> ~ In i r -> nth i x 0 = 0.
Let names' := pick EmptyString r names.
Let x' := pick 0 r x.
Lemma pick_double : forall G : string -> string -> R -> R -> R, (forall a b u, G a b 0 u = 0 /\ G a b u 0 = 0) ->
  sumn (length names') (fun i => sumn (length names') (fun j => G (nth i names' EmptyString) (nth j names' EmptyString) (nth i x' 0) (nth j x' 0))) =
  sumn (length names) (fun i => sumn (length names) (fun j => G (nth i names EmptyString) (nth j names EmptyString) (nth i x 0) (nth j x 0))).
Proof.
  intros G G0. unfold names' at 1. unfold pick at 1. rewrite map_length. rewrite <- (sumn_pick (length names) r (fun i => sumn (length names) (fun j => G (nth i names EmptyString) (nth j names EmptyString) (nth i x 0) (nth j x 0))) ND Hr).
  - apply sumn_ext. intros i Hi. unfold names', x'. rewrite !pick_nth' by exact Hi. unfold pick at 1. rewrite map_length. rewrite <- (sumn_pick (length names) r (fun j => G (nth (nth i r O) names EmptyString) (nth j names EmptyString) (nth (nth i r O) x 0) (nth j x 0)) ND Hr).
    + apply sumn_ext. intros j Hj. rewrite !pick_nth' by exact Hj. reflexivity.
    + intros j Hj Nj. rewrite (Z j Hj Nj). apply G0.
  - intros i Hi Ni. apply sumn_0. intros j Hj. rewrite (Z i Hi Ni). apply G0.
Qed.
Lemma pick_single : forall G : string -> R -> R, (forall a, G a 0 = 0) ->
  sumn (length names') (fun i => G (nth i names' EmptyString) (nth i x' 0)) = sumn (length names) (fun i => G (nth i names EmptyString) (nth i x 0)).
Proof.
  intros G G0. unfold names' at 1. unfold pick at 1. rewrite map_length. rewrite <- (sumn_pick (length names) r (fun i => G (nth i names EmptyString) (nth i x 0)) ND Hr).
  - apply sumn_ext. intros i Hi. unfold names', x'. rewrite !pick_nth' by exact Hi. reflexivity.
  - intros i Hi Ni. rewrite (Z i Hi Ni). apply G0.
Qed.
Lemma pick_gerg : forall T rho, gerg D names' x' T rho = gerg D names x T rho.
Proof.
  intros T rho. unfold gerg. assert (ET : Tred D names' x' = Tred D names x). { unfold Tred. apply (pick_double (fun a b u v => u * v * s_bT D a b * s_gT D a b * weight (s_bT D a b) u v * sqrt (s_Tc D a * s_Tc D b))). intros; split; ring. }
  assert (Ev : vred D names' x' = vred D names x). { unfold vred. apply (pick_double (fun a b u v => u * v * s_bv D a b * s_gv D a b * weight (s_bv D a b) u v * ((third (1 / s_rhoc D a) + third (1 / s_rhoc D b)) ^ 3 / 8))). intros; split; ring. }
  rewrite ET, Ev. unfold reduced. f_equal; [|f_equal].
  - apply (pick_single (fun a u => u * lsum (pterm_val (Tred D names x / T) (rho * vred D names x)) (s_pure D a))). intro; ring.
  - apply (pick_double (fun a b u v => u * v * s_F D a b * lsum (dterm_val (Tred D names x / T) (rho * vred D names x)) (s_dep D a b))). intros; split; ring.
Qed.
End Pick.

(** * Density *)
Lemma pterm_derive : forall p tau delta, ex_derive (fun delta => pterm_val tau delta p) delta.
Proof. intros [[[n t] d] c] tau delta. unfold pterm_val. destruct (Nat.eqb c 0); auto_derive; exact Logic.I. Qed.
Lemma dterm_derive : forall p tau delta, ex_derive (fun delta => dterm_val tau delta p) delta.
Proof. intros [[[[[[n t] d] e1] e2] e3] e4] tau delta. unfold dterm_val. auto_derive. exact Logic.I. Qed.
Lemma dplus : forall (f g : R -> R) x, ex_derive f x -> ex_derive g x -> ex_derive (fun d => f d + g d) x.
Proof. intros f g x F G. exact (@ex_derive_plus R_AbsRing R_NormedModule f g x F G). Qed.
Lemma dscal : forall k (f : R -> R) x, ex_derive f x -> ex_derive (fun d => k * f d) x.
Proof. intros k f x F. exact (ex_derive_scal f k x F). Qed.
Lemma dconst : forall (k : R) x, ex_derive (fun _ : R => k) x.
Proof. intros k x. exact (@ex_derive_const R_AbsRing R_NormedModule k x). Qed.
Lemma lsum_derive : forall A (f : R -> A -> R) l delta, (forall a, ex_derive (fun d => f d a) delta) -> ex_derive (fun d => lsum (f d) l) delta.
Proof. intros A f l delta H. induction l as [|a l IH]; [exact (dconst 0 delta)|]. exact (dplus (fun d => f d a) (fun d => lsum (f d) l) delta (H a) IH). Qed.
Lemma sumn_derive : forall n (f : R -> nat -> R) d, (forall i, (i < n)%nat -> ex_derive (fun d => f d i) d) -> ex_derive (fun d => sumn n (f d)) d.
Proof. induction n as [|n IH]; intros f d H; [exact (dconst 0 d)|]. refine (dplus (fun d => sumn n (f d)) (fun d => f d n) d (IH f d _) (H n _)); [intros i Hi; apply H|]; lia. Qed.
Lemma reduced_derive : forall D names x tau delta, ex_derive (fun delta => reduced D names x tau delta) delta.
Proof.
  intros. unfold reduced. refine (dplus (fun d => sumn (length names) (fun i => nth i x 0 * lsum (pterm_val tau d) (s_pure D (nth i names EmptyString))))
    (fun d => / 2 * sumn (length names) (fun i => sumn (length names) (fun j => nth i x 0 * nth j x 0 * s_F D (nth i names EmptyString) (nth j names EmptyString) * lsum (dterm_val tau d) (s_dep D (nth i names EmptyString) (nth j names EmptyString))))) delta _ _).
  - refine (sumn_derive _ (fun d i => nth i x 0 * lsum (pterm_val tau d) (s_pure D (nth i names EmptyString))) delta _). intros i _. refine (dscal _ (fun d => lsum (pterm_val tau d) (s_pure D (nth i names EmptyString))) delta _). refine (lsum_derive _ (pterm_val tau) _ delta _). intro p. apply pterm_derive.
  - refine (dscal _ (fun d => sumn (length names) (fun i => sumn (length names) (fun j => nth i x 0 * nth j x 0 * s_F D (nth i names EmptyString) (nth j names EmptyString) * lsum (dterm_val tau d) (s_dep D (nth i names EmptyString) (nth j names EmptyString))))) delta _).
    refine (sumn_derive _ (fun d i => sumn (length names) (fun j => nth i x 0 * nth j x 0 * s_F D (nth i names EmptyString) (nth j names EmptyString) * lsum (dterm_val tau d) (s_dep D (nth i names EmptyString) (nth j names EmptyString)))) delta _). intros i _.
    refine (sumn_derive _ (fun d j => nth i x 0 * nth j x 0 * s_F D (nth i names EmptyString) (nth j names EmptyString) * lsum (dterm_val tau d) (s_dep D (nth i names EmptyString) (nth j names EmptyString))) delta _). intros j _.
    refine (dscal _ (fun d => lsum (dterm_val tau d) (s_dep D (nth i names EmptyString) (nth j names EmptyString))) delta _). refine (lsum_derive _ (dterm_val tau) _ delta _). intro p. apply dterm_derive.
Qed.
Lemma gerg_derive : forall D names x T rho, ex_derive (fun rho => gerg D names x T rho) rho.
Proof.
  intros. refine (ex_derive_comp (fun d => reduced D names x (Tred D names x / T) d) (fun rho => rho * vred D names x) rho _ _); [apply reduced_derive|]. auto_derive. exact Logic.I.
Qed.
Lemma lsum_0 : forall A (f : A -> R) l, (forall a, In a l -> f a = 0) -> lsum f l = 0.
Proof. intros A f l. induction l as [|a l IH]; intro H; [reflexivity|]. cbn. fold (lsum f l). rewrite IH by (intros; apply H; now right). rewrite (H a (or_introl eq_refl)). ring. Qed.
Lemma pure_0 : forall p tau, pcoef_ok p = true -> lsum (pterm_val tau 0) (map pterm_of (pterms p)) = 0.
Proof.
  intros p tau H. apply lsum_0. intros a Ha. apply in_map_iff in Ha as (q & <- & Hq). unfold pterms in Hq. apply in_map_iff in Hq as (i & <- & Hi). unfold pcoef_ok in H. rewrite !andb_true_iff in H. destruct H as [_ H]. rewrite forallb_forall in H. specialize (H i Hi). apply andb_true_iff in H as [H _]. apply Nat.ltb_lt in H. unfold pterm_of, pterm_val. rewrite pow_i by exact H. ring.
Qed.
Lemma dep_0 : forall c tau, dcoef_ok c = true -> lsum (dterm_val tau 0) (map dterm_of (dterms c)) = 0.
Proof.
  intros c tau H. apply lsum_0. intros a Ha. apply in_map_iff in Ha as (q & <- & Hq). unfold dterms in Hq. apply in_map_iff in Hq as (i & <- & Hi). unfold dcoef_ok in H. rewrite !andb_true_iff in H. destruct H as ((((((_ & L2) & _) & _) & _) & _) & H). rewrite forallb_forall in H. apply Nat.eqb_eq in L2. apply in_seq in Hi. assert (Hd : (0 < nth i (dc_d c) O)%nat). { apply Nat.ltb_lt, H, nth_In. lia. } unfold dterm_of, dterm_val. rewrite pow_i by exact Hd. ring.
Qed.
Lemma gerg_0 : forall L D names x T, fits L D names -> gerg D names x T 0 = 0.
Proof.
  intros L D names x T F. unfold gerg, reduced. rewrite Rmult_0_l. rewrite (sumn_0 (length names)).
  - rewrite (sumn_0 (length names)); [ring|]. intros i Hi. apply sumn_0. intros j Hj. destruct (Req_EM_T (s_F D (nth i names EmptyString) (nth j names EmptyString)) 0) as [->|NZ]; [ring|]. destruct (fit_dep _ _ _ F (nth i names EmptyString) (nth j names EmptyString) (nth_In _ _ Hi) (nth_In _ _ Hj) NZ) as (c & _ & Ok & <-). rewrite (dep_0 c _ Ok). ring.
  - intros i Hi. destruct (fit_pure _ _ _ F (nth i names EmptyString) (nth_In _ _ Hi)) as (p & _ & Ok & <-). rewrite (pure_0 p _ Ok). ring.
Qed.
