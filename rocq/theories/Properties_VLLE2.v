(** C46, continued: crossings of polylines and the search for three-phase states in traces. *)
From Coq Require Import Reals ZArith String List Bool Lia Lra.
From Verif Require Import Json_model Cubic_model Float_model VLE_model VLLE_model VLLE_spec.
Import ListNotations.
Open Scope R_scope.

(** ** Crossings *)
Lemma segments_cross_iff : forall qr2 j k x1 y1 x2 y2 c, solver2 qr2 ->
  (In c (segments_cross qr2 j k x1 y1 x2 y2) <->
   cr_j c = j /\ cr_k c = k /\ crosses x1 y1 x2 y2 j k (cr_s c) (cr_t c) /\ (cr_x c, cr_y c) = on_segment x1 y1 j (cr_s c)).
Proof.
  intros qr2 j k x1 y1 x2 y2 c Hq. unfold segments_cross, crosses, on_segment, transversal.
  set (a := nth (S j) x1 0 - nth j x1 0). set (b := nth k x2 0 - nth (S k) x2 0). set (d := nth (S j) y1 0 - nth j y1 0).
  set (e := nth k y2 0 - nth (S k) y2 0). destruct (Hq a b d e (nth k x2 0 - nth j x1 0) (nth k y2 0 - nth j y1 0)) as [RG SG]. split.
  - destruct (qr2 a b d e _ _) as [[s t]|] eqn:E; [|intros []].
    destruct (Rlt_dec 0 s), (Rlt_dec s 1), (Rlt_dec 0 t), (Rlt_dec t 1); cbn [andb]; try (intros []; fail).
    intros [<-|[]]. cbn [cr_j cr_k cr_s cr_t cr_x cr_y]. split; [reflexivity|]. split; [reflexivity|]. split; [|reflexivity].
    assert (D : a * e - b * d <> 0) by (intros D; destruct (SG D s t eq_refl); lra).
    destruct (RG D) as (s' & t' & E' & Q1 & Q2). injection E' as <- <-.
    split; [intros Z; apply D; unfold b, e; lra|]. split; [lra|]. split; [lra|]. apply f_equal2; unfold b, e in *; lra.
  - intros (J & K & (D & S & T & P) & X). assert (D' : a * e - b * d <> 0) by (intros Z; apply D; unfold b, e in Z; lra).
    destruct (RG D') as (s & t & E & Q1 & Q2). rewrite E. injection P as P1 P2. injection X as X1 X2.
    assert (Q3 : a * cr_s c + b * cr_t c = nth k x2 0 - nth j x1 0) by (unfold b; lra).
    assert (Q4 : d * cr_s c + e * cr_t c = nth k y2 0 - nth j y1 0) by (unfold e; lra).
    assert (s = cr_s c) by (apply (Rmult_eq_reg_l (a * e - b * d)); auto; transitivity (e * (a * s + b * t) - b * (d * s + e * t)); [ring|]; rewrite Q1, Q2, <- Q3, <- Q4; ring).
    assert (t = cr_t c) by (apply (Rmult_eq_reg_l (a * e - b * d)); auto; transitivity (a * (d * s + e * t) - d * (a * s + b * t)); [ring|]; rewrite Q1, Q2, <- Q3, <- Q4; ring).
    subst s t. destruct (Rlt_dec 0 (cr_s c)), (Rlt_dec (cr_s c) 1), (Rlt_dec 0 (cr_t c)), (Rlt_dec (cr_t c) 1); try lra. left.
    destruct c as [cj ck cs ct cx cy]. cbn [cr_j cr_k cr_s cr_t cr_x cr_y] in *. subst. reflexivity.
Qed.
Lemma segments_cross_one : forall qr2 j k x1 y1 x2 y2, (length (segments_cross qr2 j k x1 y1 x2 y2) <= 1)%nat.
Proof. intros. unfold segments_cross. destruct (qr2 _ _ _ _ _ _) as [[s t]|]; [|cbn; lia]. destruct (_ && _ && _ && _); cbn; lia. Qed.
Lemma keys_nodup : forall (A B : Type) (g : A -> list crossing) (key : crossing -> B) ls, NoDup ls -> (forall a, In a ls -> NoDup (map key (g a))) ->
  (forall a b c d, In a ls -> In b ls -> a <> b -> In c (g a) -> In d (g b) -> key c <> key d) -> NoDup (map key (flat_map g ls)).
Proof.
  induction ls as [|a ls IH]; intros ND H1 H2; [constructor|]. cbn [flat_map]. rewrite map_app. inversion ND as [|? ? NI ND']; subst.
  assert (I : NoDup (map key (flat_map g ls))) by (apply IH; [auto|intros; apply H1; now right|intros x y c d Hx Hy N Hc Hd; exact (H2 x y c d (or_intror Hx) (or_intror Hy) N Hc Hd)]).
  assert (J : NoDup (map key (g a))) by (apply H1; now left).
  assert (D : forall x, In x (map key (g a)) -> ~ In x (map key (flat_map g ls))).
  { intros x X Y. apply in_map_iff in X. destruct X as (c & <- & Hc). apply in_map_iff in Y. destruct Y as (d & E & Hd). apply in_flat_map in Hd.
    destruct Hd as (b & Hb & Hd). apply (H2 a b c d); auto; [now left|now right|intros ->; contradiction]. }
  revert J D. generalize (map key (g a)). induction l as [|x l IHl]; intros J D; [exact I|]. inversion J as [|? ? NX J']; subst. cbn [app]. constructor.
  - rewrite in_app_iff. intros [X|X]; [contradiction|]. apply (D x); [now left|exact X].
  - apply IHl; [auto|]. intros y Hy. apply D. now right.
Qed.
Lemma one_nodup : forall (A B : Type) (key : A -> B) l, (length l <= 1)%nat -> NoDup (map key l).
Proof. intros A B key [|a [|b l]] H; cbn in H; [constructor|repeat constructor; intros []|lia]. Qed.
Lemma segments_cross_key : forall qr2 j k x1 y1 x2 y2 c, In c (segments_cross qr2 j k x1 y1 x2 y2) -> cr_j c = j /\ cr_k c = k.
Proof.
  intros qr2 j k x1 y1 x2 y2 c. unfold segments_cross. destruct (qr2 _ _ _ _ _ _) as [[s t]|]; [|intros []]. destruct (_ && _ && _ && _); [|intros []]. intros [<-|[]]. auto.
Qed.
Lemma grid_nodup : forall qr2 x1 y1 x2 y2 js (ks : nat -> list nat), NoDup js -> (forall j, NoDup (ks j)) ->
  NoDup (map (fun c => (cr_j c, cr_k c)) (flat_map (fun j => flat_map (fun k => segments_cross qr2 j k x1 y1 x2 y2) (ks j)) js)).
Proof.
  intros qr2 x1 y1 x2 y2 js ks HJ HK. apply keys_nodup; [exact HJ| |].
  - intros j _. apply keys_nodup; [apply HK|intros k _; apply one_nodup, segments_cross_one|].
    intros k k' c d _ _ N Hc Hd E. apply segments_cross_key in Hc. apply segments_cross_key in Hd. injection E as _ E. destruct Hc, Hd. congruence.
  - intros j j' c d _ _ N Hc Hd E. apply in_flat_map in Hc. destruct Hc as (k & _ & Hc). apply in_flat_map in Hd. destruct Hd as (k' & _ & Hd).
    apply segments_cross_key in Hc. apply segments_cross_key in Hd. injection E as E _. destruct Hc, Hd. congruence.
Qed.
(** The self-intersections reported are exactly the points at which the insides of two
    different segments of the line cross, each pair of segments once. *)
Theorem C46_self_crossings : forall qr2 x y, solver2 qr2 -> (1 <= length x)%nat -> length y = length x ->
  exists l, get_self_intersections qr2 x y = Some l /\ NoDup (map (fun c => (cr_j c, cr_k c)) l) /\
    forall c, In c l <-> (cr_j c < cr_k c)%nat /\ (S (cr_k c) < length x)%nat /\ crosses x y x y (cr_j c) (cr_k c) (cr_s c) (cr_t c) /\
      (cr_x c, cr_y c) = on_segment x y (cr_j c) (cr_s c) /\ (cr_x c, cr_y c) = on_segment x y (cr_k c) (cr_t c).
Proof.
  intros qr2 x y Hq Hx Hy. unfold get_self_intersections. rewrite Hy, Nat.ltb_irrefl, andb_false_r, orb_false_r.
  destruct (Nat.eqb_spec (length x) 0); [lia|]. eexists. split; [reflexivity|]. split.
  { apply (grid_nodup qr2 x y x y _ (fun j => seq (S j) (length x - 1 - S j))); [|intros]; apply seq_NoDup. }
  intros c. rewrite in_flat_map. split.
  - intros (j & Hj & H). apply in_flat_map in H. destruct H as (k & Hk & H). apply in_seq in Hj, Hk. apply segments_cross_iff in H; auto.
    destruct H as (J & K & X & P). rewrite J, K. split; [lia|]. split; [lia|]. split; [exact X|]. split; [exact P|]. destruct X as (_ & _ & _ & X). congruence.
  - intros (A & B & X & P & _). exists (cr_j c). split; [apply in_seq; lia|]. apply in_flat_map. exists (cr_k c). split; [apply in_seq; lia|].
    apply segments_cross_iff; auto.
Qed.
(** The same for two lines. *)
Theorem C46_cross_crossings : forall qr2 x1 y1 x2 y2, solver2 qr2 -> (1 <= length x1)%nat -> (1 <= length x2)%nat -> length y1 = length x1 -> length y2 = length x2 ->
  exists l, get_cross_intersections qr2 x1 y1 x2 y2 = Some l /\ NoDup (map (fun c => (cr_j c, cr_k c)) l) /\
    forall c, In c l <-> (S (cr_j c) < length x1)%nat /\ (S (cr_k c) < length x2)%nat /\ crosses x1 y1 x2 y2 (cr_j c) (cr_k c) (cr_s c) (cr_t c) /\
      (cr_x c, cr_y c) = on_segment x1 y1 (cr_j c) (cr_s c) /\ (cr_x c, cr_y c) = on_segment x2 y2 (cr_k c) (cr_t c).
Proof.
  intros qr2 x1 y1 x2 y2 Hq H1 H2 Hy1 Hy2. unfold get_cross_intersections. rewrite Hy1, Hy2, !Nat.ltb_irrefl, andb_false_r, !orb_false_r.
  destruct (Nat.eqb_spec (length x1) 0); [lia|]. destruct (Nat.eqb_spec (length x2) 0); [lia|]. destruct (Nat.eqb_spec (length x1) 1) as [E1|N1].
  { exists []. split; [reflexivity|]. split; [constructor|]. intros c. split; [intros []|]. intros (A & _). lia. }
  eexists. split; [reflexivity|]. split.
  { apply (grid_nodup qr2 x1 y1 x2 y2 _ (fun j => seq 0 (length x2 - 1))); [|intros]; apply seq_NoDup. }
  intros c. rewrite in_flat_map. split.
  - intros (j & Hj & H). apply in_flat_map in H. destruct H as (k & Hk & H). apply in_seq in Hj, Hk. apply segments_cross_iff in H; auto.
    destruct H as (J & K & X & P). rewrite J, K. split; [lia|]. split; [lia|]. split; [exact X|]. split; [exact P|]. destruct X as (_ & _ & _ & X). congruence.
  - intros (A & B & X & P & _). exists (cr_j c). split; [apply in_seq; lia|]. apply in_flat_map. exists (cr_k c). split; [apply in_seq; lia|].
    apply segments_cross_iff; auto.
Qed.
(** an exact solver *)
Definition qr_exact (a b c d e f : R) : option (R * R) :=
  if Req_EM_T (a * d - b * c) 0 then None else Some ((d * e - b * f) / (a * d - b * c), (a * f - c * e) / (a * d - b * c)).
Example qr_exact_solves : solver2 qr_exact.
Proof.
  intros a b c d e f. unfold qr_exact. destruct (Req_EM_T (a * d - b * c) 0) as [Z|Z]; split; intros H; try contradiction.
  - discriminate.
  - eexists _, _. split; [reflexivity|]. split; field; auto.
Qed.
(** A line that crosses itself: the segments from (0,0) to (2,2) and from (2,0) to (0,2). *)
Example C46_self_crossings_met : exists l, get_self_intersections qr_exact [0; 2; 2; 0] [0; 2; 0; 2] = Some l /\
  In {| cr_j := 0; cr_k := 2; cr_s := 1 / 2; cr_t := 1 / 2; cr_x := 1; cr_y := 1 |} l.
Proof.
  destruct (C46_self_crossings qr_exact [0; 2; 2; 0] [0; 2; 0; 2] qr_exact_solves) as (l & E & _ & H); [cbn; lia|reflexivity|].
  exists l. split; [exact E|]. apply H. unfold crosses, transversal, on_segment. cbn [cr_j cr_k cr_s cr_t cr_x cr_y nth length].
  split; [lia|]. split; [lia|]. split; [|split; apply f_equal2; lra]. split; [lra|]. split; [lra|]. split; [lra|]. apply f_equal2; lra.
Qed.
(** Crossings at the common point of two segments of a line are missed: the broken line
    through (-1,0), (0,0), (1,0) crosses the line from (0,-1) to (0,1), and nothing is found.
    Without points the loops run outside the arrays. *)
Theorem C46_vertex_refuted : forall qr2, solver2 qr2 ->
  get_cross_intersections qr2 [-1; 0; 1] [0; 0; 0] [0; 0] [-1; 1] = Some [] /\
  (exists s t, on_segment [-1; 0; 1] [0; 0; 0] 0 s = on_segment [0; 0] [-1; 1] 0 t /\ 0 <= s <= 1 /\ 0 < t < 1) /\
  forall y, get_self_intersections qr2 [] y = None.
Proof.
  intros qr2 Hq. split; [|split; [|reflexivity]].
  - destruct (C46_cross_crossings qr2 [-1; 0; 1] [0; 0; 0] [0; 0] [-1; 1] Hq) as (l & E & _ & H); try (cbn; lia).
    rewrite E. destruct l as [|c l]; [reflexivity|]. exfalso. destruct (H c) as [H1 _]. destruct (H1 (or_introl eq_refl)) as (A & B & (_ & S & T & P) & _).
    cbn [length] in A, B. assert (K : cr_k c = 0%nat) by lia. rewrite K in P. unfold on_segment in P. injection P as P1 P2.
    assert (J : cr_j c = 0%nat \/ cr_j c = 1%nat) by lia. destruct J as [J|J]; rewrite J in *; cbn [nth] in P1, P2; lra.
  - exists 1, (1 / 2). unfold on_segment. cbn [nth]. split; [apply f_equal2; lra|lra].
Qed.
Example C46_vertex_refuted_met : exists qr2, solver2 qr2.
Proof. exists qr_exact. exact qr_exact_solves. Qed.

(** ** The search *)
Definition total (v : list R) : R := fold_right Rplus 0 v.
(** With no trace or with more than two the search throws. *)
Theorem C46_traces : forall qr2 pT pp th key traces, (length traces = 0%nat \/ (3 <= length traces)%nat) ->
  find_VLLE_gen_binary qr2 pT pp th key traces = throws InvalidArgument.
Proof. intros qr2 pT pp th key [|a [|b [|c l]]] [H|H]; cbn in H; try lia; reflexivity. Qed.
Lemma keep_iff : forall pT pp th key tr1 tr2 l v, keep_solutions pT pp th key tr1 tr2 l = Some v ->
  forall s, In s v <-> exists c, In c l /\ process_intersection pT pp key tr1 tr2 c = Some (Val s) /\ non_trivial th s = Some true.
Proof.
  intros pT pp th key tr1 tr2. induction l as [|c l IH]; intros v E s; cbn [keep_solutions] in E.
  - injection E as <-. split; [intros []|]. intros (c & [] & _).
  - destruct (process_intersection pT pp key tr1 tr2 c) as [[q|e]|] eqn:P; [| |discriminate]; (destruct (keep_solutions pT pp th key tr1 tr2 l) as [w|] eqn:K; [|discriminate]).
    + destruct (non_trivial th q) as [[|]|] eqn:N; [| |discriminate]; injection E as <-.
      * cbn [In]. rewrite (IH w eq_refl s). split.
        -- intros [<-|(c' & A & B)]; [exists c; auto|exists c'; auto].
        -- intros (c' & [<-|A] & B & C); [left; congruence|right; eauto].
      * rewrite (IH w eq_refl s). split; [intros (c' & A & B); exists c'; split; [now right|exact B]|]. intros (c' & [<-|A] & B & C); [congruence|eauto].
    + injection E as <-. rewrite (IH w eq_refl s). split; [intros (c' & A & B); exists c'; split; [now right|exact B]|]. intros (c' & [<-|A] & B & C); [congruence|eauto].
Qed.
(** The crossings the search looks at: of a trace with itself or of two traces, in the plane
    of vapor composition and pressure (resp. temperature). *)
Definition vapor_fraction (q : trace_point) : R := nth 0 (tp_rhoV q) 0 / total (tp_rhoV q).
Definition ordinate (key : vlle_key) (q : trace_point) : R := match key with key_T => tp_pL q | _ => tp_Temp q end.
Definition point0 : trace_point := {| tp_rhoL := []; tp_rhoV := []; tp_Temp := 0; tp_pL := 0 |}.
Definition searched (qr2 : R -> R -> R -> R -> R -> R -> option (R * R)) (key : vlle_key) (traces : list (list trace_point)) (tr1 tr2 : list trace_point) (l : list crossing) : Prop :=
  (traces = [tr1] /\ tr2 = tr1 /\ get_self_intersections qr2 (map vapor_fraction tr1) (map (ordinate key) tr1) = Some l) \/
  (traces = [tr1; tr2] /\ get_cross_intersections qr2 (map vapor_fraction tr1) (map (ordinate key) tr1) (map vapor_fraction tr2) (map (ordinate key) tr2) = Some l).
(** between the values at the two ends, with weight [w] on the first *)
Definition weighted (w : R) (u v r : list R) : Prop := length v = length u /\ length r = length u /\ forall i, (i < length u)%nat -> nth i r 0 = w * nth i u 0 + (1 - w) * nth i v 0.
(** What is made of a crossing: three concentration vectors between the points of the traces
    go to the solver, at the temperature (pressure) of the first point of the first trace. *)
Definition made_of (pT : R -> list R -> list R -> list R -> res (vlle_code * list R * list R * list R))
  (pp : R -> R -> list R -> list R -> list R -> res (vlle_code * R * list R * list R * list R))
  (key : vlle_key) (tr1 tr2 : list trace_point) (c : crossing) (s : vlle_solution) : Prop :=
  exists V L1 L2 : list R, let a := nth (cr_j c) tr1 point0 in let b := nth (S (cr_j c)) tr1 point0 in
    let d := nth (cr_k c) tr2 point0 in let e := nth (S (cr_k c)) tr2 point0 in
  weighted (cr_s c) (tp_rhoV a) (tp_rhoV b) V /\ weighted (cr_s c) (tp_rhoL a) (tp_rhoL b) L1 /\ weighted (cr_t c) (tp_rhoL d) (tp_rhoL e) L2 /\ vs_guess s = [V; L1; L2] /\
  ((key = key_T /\ vs_guess_T s = None /\ vs_polished_T s = None /\
    exists V' L1' L2', pT (tp_Temp (nth 0 tr1 point0)) V L1 L2 = Val (vs_code s, V', L1', L2') /\ vs_polished s = [V'; L1'; L2']) \/
   (key = key_P /\ vs_guess_T s = Some (cr_y c) /\
    exists T' V' L1' L2', pp (tp_pL (nth 0 tr1 point0)) (cr_y c) V L1 L2 = Val (vs_code s, T', V', L1', L2') /\ vs_polished s = [V'; L1'; L2'] /\ vs_polished_T s = Some T')).
Lemma avg_iff : forall u v w r, avg_values u v w = Some r <-> weighted w u v r.
Proof.
  intros u v w r. unfold avg_values, weighted. destruct (Nat.eqb_spec (length u) (length v)) as [L|L].
  - assert (NT : forall i, (i < length u)%nat -> nth i (map (fun p => fst p * w + snd p * (1 - w)) (combine u v)) 0 = w * nth i u 0 + (1 - w) * nth i v 0).
    { intros i Hi. rewrite (nth_indep _ 0 ((fun p => fst p * w + snd p * (1 - w)) (0, 0))) by (rewrite map_length, combine_length; lia).
      rewrite (map_nth (fun p => fst p * w + snd p * (1 - w))), combine_nth by auto. cbn [fst snd]. ring. }
    split.
    + intros E. assert (Q : r = map (fun p => fst p * w + snd p * (1 - w)) (combine u v)) by congruence. rewrite Q. split; [auto|]. split; [rewrite map_length, combine_length; lia|exact NT].
    + intros (_ & LR & H). f_equal. apply nth_ext with (d := 0) (d' := 0); rewrite map_length, combine_length; [lia|]. intros i Hi. rewrite NT, H by lia. reflexivity.
  - split; [discriminate|]. intros (E & _). congruence.
Qed.
Lemma made_iff : forall pT pp key tr1 tr2 c s, process_intersection pT pp key tr1 tr2 c = Some (Val s) <-> made_of pT pp key tr1 tr2 c s.
Proof.
  intros pT pp key tr1 tr2 c s. unfold process_intersection, made_of. cbv zeta. split.
  - destruct (avg_values _ _ (cr_s c)) as [L1|] eqn:E1; [|discriminate]. destruct (avg_values _ _ (cr_t c)) as [L2|] eqn:E2; [|discriminate].
    destruct (avg_values (tp_rhoV _) _ (cr_s c)) as [V|] eqn:E3; [|discriminate]. intros H. exists V, L1, L2.
    apply avg_iff in E1, E2, E3. split; [exact E3|]. split; [exact E1|]. split; [exact E2|]. destruct key; [| |discriminate].
    + destruct (pT _ V L1 L2) as [[[[code V'] L1'] L2']|] eqn:E; [|discriminate]. injection H as <-. split; [reflexivity|]. left.
      split; [reflexivity|]. split; [reflexivity|]. split; [reflexivity|]. exists V', L1', L2'. split; reflexivity.
    + destruct (pp _ _ V L1 L2) as [[[[[code T'] V'] L1'] L2']|] eqn:E; [|discriminate]. injection H as <-. split; [reflexivity|]. right.
      split; [reflexivity|]. split; [reflexivity|]. exists T', V', L1', L2'. repeat split; reflexivity.
  - intros (V & L1 & L2 & W1 & W2 & W3 & G & H). apply avg_iff in W1, W2, W3. change tp0 with point0. rewrite W1, W2, W3. f_equal.
    destruct s as [sg sgT sp spT sc]. cbn [vs_guess vs_guess_T vs_polished vs_polished_T vs_code] in *.
    destruct H as [(-> & -> & -> & V' & L1' & L2' & E & ->)|(-> & -> & T' & V' & L1' & L2' & E & -> & ->)]; rewrite E, G; reflexivity.
Qed.
Lemma xs_of_iff : forall l v, xs_of l = Some v -> v = map vapor_fraction l.
Proof.
  induction l as [|q l IH]; intros v E; cbn [xs_of] in E; [injection E as <-; reflexivity|]. unfold x_of in E. cbn [map]. unfold vapor_fraction at 1, total.
  destruct (tp_rhoV q) as [|a r]; [discriminate|]. destruct (Req_EM_T _ 0); [discriminate|]. destruct (xs_of l) as [w|]; [|discriminate].
  injection E as <-. cbn [nth]. f_equal. now apply IH.
Qed.
(** What is returned: for each crossing the polished state, if the polishing did not throw and
    the two liquids differ by more than the given number of percent in their densities. *)
Theorem C46_search : forall qr2 pT pp th key traces v, find_VLLE_gen_binary qr2 pT pp th key traces = ok v ->
  exists tr1 tr2 l, searched qr2 key traces tr1 tr2 l /\
  forall s, In s v <-> exists c, In c l /\ made_of pT pp key tr1 tr2 c s /\
    exists V L1 L2, vs_polished s = [V; L1; L2] /\ total L2 <> 0 /\ Rabs (100 * (total L1 / total L2 - 1)) > th.
Proof.
  intros qr2 pT pp th key traces v E.
  assert (NT : forall s, non_trivial th s = Some true <-> exists V L1 L2, vs_polished s = [V; L1; L2] /\ total L2 <> 0 /\ Rabs (100 * (total L1 / total L2 - 1)) > th).
  { intros s. unfold non_trivial. split.
    - destruct (vs_polished s) as [|V [|L1 [|L2 [|]]]]; try discriminate. fold (total L1) (total L2). destruct (Req_EM_T (total L2) 0); [discriminate|].
      destruct (Rlt_dec _ _); [|discriminate]. intros _. exists V, L1, L2. auto.
    - intros (V & L1 & L2 & -> & N & H). fold (total L1) (total L2). destruct (Req_EM_T (total L2) 0); [contradiction|]. destruct (Rlt_dec _ _); [reflexivity|]. lra. }
  assert (Y : forall q, y_of key q = ordinate key q) by (intros; reflexivity).
  destruct traces as [|tr1 [|tr2 [|]]]; cbn [find_VLLE_gen_binary] in E; try discriminate.
  - destruct (xs_of tr1) as [x|] eqn:X; [|discriminate]. apply xs_of_iff in X. subst x. rewrite (map_ext _ _ Y) in E.
    destruct (get_self_intersections _ _ _) as [l|] eqn:G; [|discriminate]. destruct (keep_solutions _ _ _ _ _ _ l) as [w|] eqn:K; [|discriminate]. injection E as <-.
    exists tr1, tr1, l. split; [left; auto|]. intros s. rewrite (keep_iff _ _ _ _ _ _ _ _ K s). setoid_rewrite made_iff. setoid_rewrite NT. reflexivity.
  - destruct (xs_of tr1) as [x1|] eqn:X1; [|discriminate]. destruct (xs_of tr2) as [x2|] eqn:X2; [|discriminate]. apply xs_of_iff in X1, X2. subst x1 x2.
    rewrite !(map_ext _ _ Y) in E. destruct (get_cross_intersections _ _ _ _ _) as [l|] eqn:G; [|discriminate].
    destruct (keep_solutions _ _ _ _ _ _ l) as [w|] eqn:K; [|discriminate]. injection E as <-.
    exists tr1, tr2, l. split; [right; auto|]. intros s. rewrite (keep_iff _ _ _ _ _ _ _ _ K s). setoid_rewrite made_iff. setoid_rewrite NT. reflexivity.
Qed.
(** An unknown key is not reported: the exception is swallowed and nothing is found. *)
Theorem C46_key_refuted : forall qr2 pT pp th traces v, find_VLLE_gen_binary qr2 pT pp th key_other traces = ok v -> v = [].
Proof.
  intros qr2 pT pp th traces v E. destruct (C46_search _ _ _ _ _ _ _ E) as (tr1 & tr2 & l & _ & H). destruct v as [|s v]; [reflexivity|]. exfalso.
  destruct (H s) as [H1 _]. destruct (H1 (or_introl eq_refl)) as (c & _ & (V & L1 & L2 & _ & _ & _ & _ & [(K & _)|(K & _)]) & _); discriminate.
Qed.
(** two traces that cross at a quarter of the segment of the first *)
Definition tpt (l v T p : R) : trace_point := {| tp_rhoL := [l; l]; tp_rhoV := [v; 1 - v]; tp_Temp := T; tp_pL := p |}.
Definition trace1 := [tpt 10 0 300 0; tpt 14 1 300 1].
Definition trace2 := [tpt 20 0 300 (1 / 2); tpt 28 1 300 (- (1 / 2))].
Definition echo (T : R) (V L1 L2 : list R) : res (vlle_code * list R * list R * list R) := Val (vlle_xtol_satisfied, V, L1, L2).
Definition echo_p (p T : R) (V L1 L2 : list R) : res (vlle_code * R * list R * list R * list R) := Val (vlle_xtol_satisfied, T, V, L1, L2).
Definition crossing1 : crossing := {| cr_j := 0; cr_k := 0; cr_s := 1 / 4; cr_t := 1 / 4; cr_x := 1 / 4; cr_y := 1 / 4 |}.
Lemma vapor_fractions : map vapor_fraction trace1 = [0; 1] /\ map vapor_fraction trace2 = [0; 1].
Proof. unfold trace1, trace2, vapor_fraction, total, tpt. cbn [map tp_rhoV nth fold_right]. split; repeat (apply f_equal2; [field; lra|]); reflexivity. Qed.
Lemma crossing1_in : forall qr2, solver2 qr2 -> exists l, searched qr2 key_T [trace1; trace2] trace1 trace2 l /\ l = [crossing1].
Proof.
  intros qr2 Hq. destruct vapor_fractions as [F1 F2]. unfold searched. rewrite F1, F2. change (map (ordinate key_T) trace1) with [0; 1]. change (map (ordinate key_T) trace2) with [1 / 2; - (1 / 2)].
  destruct (C46_cross_crossings qr2 [0; 1] [0; 1] [0; 1] [1 / 2; - (1 / 2)] Hq) as (l & E & ND & H); try (cbn; lia). exists l. split; [right; split; [reflexivity|exact E]|].
  assert (J : forall c, In c l -> cr_j c = 0%nat /\ cr_k c = 0%nat /\ c = crossing1).
  { intros c Hc. apply H in Hc. destruct Hc as (A & B & (_ & _ & _ & P) & X & _). cbn [length] in A, B. assert (J : cr_j c = 0%nat) by lia. assert (K : cr_k c = 0%nat) by lia.
    split; [exact J|]. split; [exact K|]. destruct c as [j k s t x y]. cbn [cr_j cr_k cr_s cr_t cr_x cr_y] in *. subst j k. unfold on_segment in P, X. cbn [nth] in P, X.
    injection P as P1 P2. injection X as X1 X2. unfold crossing1. f_equal; lra. }
  assert (C1 : In crossing1 l).
  { apply H. unfold crosses, transversal, on_segment, crossing1. cbn [cr_j cr_k cr_s cr_t cr_x cr_y nth length]. split; [lia|]. split; [lia|].
    split; [|split; apply f_equal2; lra]. split; [lra|]. split; [lra|]. split; [lra|]. apply f_equal2; lra. }
  destruct l as [|c [|d l]]; [destruct C1| |].
  - f_equal. apply J. now left.
  - exfalso. destruct (J c) as (A & B & _); [now left|]. destruct (J d) as (C & D & _); [right; now left|]. cbn [map] in ND. inversion ND as [|? ? N _]. apply N. left. congruence.
Qed.
(** The weights are those of the other end: with the crossing at a quarter of the way, at the
    vapor mole fraction 1/4, the first guess of the vapor has the mole fraction 3/4. *)
Theorem C46_weights_refuted : forall qr2 pT pp, solver2 qr2 ->
  exists tr1 tr2 l c, searched qr2 key_T [tr1; tr2] tr1 tr2 l /\ In c l /\ cr_x c = 1 / 4 /\
    forall s, made_of pT pp key_T tr1 tr2 c s -> exists L1 L2, vs_guess s = [[3 / 4; 1 / 4]; L1; L2].
Proof.
  intros qr2 pT pp Hq. destruct (crossing1_in qr2 Hq) as (l & S & ->). exists trace1, trace2, [crossing1], crossing1. split; [exact S|]. split; [now left|]. split; [reflexivity|].
  intros s (V & L1 & L2 & (_ & LV & H) & _ & _ & G & _). exists L1, L2. rewrite G. do 2 f_equal.
  cbn [crossing1 cr_j cr_s nth trace1 tpt tp_rhoV length] in LV, H. destruct V as [|a [|b [|]]]; try discriminate.
  pose proof (H 0%nat ltac:(lia)) as H0. pose proof (H 1%nat ltac:(lia)) as H1. cbn [nth] in H0, H1. repeat (apply f_equal2; [lra|]). reflexivity.
Qed.
Example C46_search_met : exists v s, find_VLLE_gen_binary qr_exact echo echo_p 1 key_T [trace1; trace2] = ok v /\ In s v /\ vs_guess s = [[3 / 4; 1 / 4]; [13; 13]; [26; 26]].
Proof.
  destruct (crossing1_in qr_exact qr_exact_solves) as (l & S & ->). destruct S as [(S & _)|(_ & S)]; [discriminate|].
  exists [ {| vs_guess := [[3 / 4; 1 / 4]; [13; 13]; [26; 26]]; vs_guess_T := None; vs_polished := [[3 / 4; 1 / 4]; [13; 13]; [26; 26]]; vs_polished_T := None; vs_code := vlle_xtol_satisfied |} ].
  eexists. split; [|split; [left; reflexivity|reflexivity]]. cbn [find_VLLE_gen_binary].
  assert (X : forall l v, xs_of l = Some v -> xs_of l = Some (map vapor_fraction l)) by (intros l v E; rewrite E; f_equal; now apply xs_of_iff).
  assert (X1 : xs_of trace1 = Some (map vapor_fraction trace1)).
  { apply (X _ [(0 / (0 + (1 - 0 + 0))); 1 / (1 + (1 - 1 + 0))]). unfold trace1, tpt, xs_of, x_of. cbn [tp_rhoV fold_right].
    destruct (Req_EM_T (0 + (1 - 0 + 0)) 0); [lra|]. destruct (Req_EM_T (1 + (1 - 1 + 0)) 0); [lra|]. reflexivity. }
  assert (X2 : xs_of trace2 = Some (map vapor_fraction trace2)).
  { apply (X _ [(0 / (0 + (1 - 0 + 0))); 1 / (1 + (1 - 1 + 0))]). unfold trace2, tpt, xs_of, x_of. cbn [tp_rhoV fold_right].
    destruct (Req_EM_T (0 + (1 - 0 + 0)) 0); [lra|]. destruct (Req_EM_T (1 + (1 - 1 + 0)) 0); [lra|]. reflexivity. }
  rewrite X1, X2. change (y_of key_T) with (ordinate key_T). rewrite S. cbn [keep_solutions].
  assert (P : process_intersection echo echo_p key_T trace1 trace2 crossing1 = Some (Val {| vs_guess := [[3 / 4; 1 / 4]; [13; 13]; [26; 26]]; vs_guess_T := None;
     vs_polished := [[3 / 4; 1 / 4]; [13; 13]; [26; 26]]; vs_polished_T := None; vs_code := vlle_xtol_satisfied |})).
  { apply made_iff. exists [3 / 4; 1 / 4], [13; 13], [26; 26]. cbv zeta. cbn [crossing1 cr_j cr_k cr_s cr_t nth trace1 trace2 tpt tp_rhoV tp_rhoL].
    split; [|split; [|split; [|split; [reflexivity|]]]].
    1-3: split; [reflexivity|]; split; [reflexivity|]; intros [|[|i]] Hi; cbn [nth length] in *; try lia; lra.
    left. split; [reflexivity|]. split; [reflexivity|]. split; [reflexivity|]. exists [3 / 4; 1 / 4], [13; 13], [26; 26]. split; reflexivity. }
  rewrite P. unfold non_trivial. cbn [vs_polished fold_right]. destruct (Req_EM_T (26 + (26 + 0)) 0); [lra|].
  replace (100 * ((13 + (13 + 0)) / (26 + (26 + 0)) - 1)) with (- (50)) by field. rewrite Rabs_left by lra. destruct (Rlt_dec 1 (- - (50))); [reflexivity|lra].
Qed.
Example C46_key_refuted_met : find_VLLE_gen_binary qr_exact echo echo_p 1 key_other [[tpt 1 0 300 0]] = ok [].
Proof.
  cbn [find_VLLE_gen_binary xs_of x_of tpt tp_rhoV fold_right]. destruct (Req_EM_T (0 + (1 - 0 + 0)) 0); [lra|]. reflexivity.
Qed.
Print Assumptions C46_self_crossings.
Print Assumptions C46_cross_crossings.
Print Assumptions C46_vertex_refuted.
Print Assumptions C46_traces.
Print Assumptions C46_search.
Print Assumptions C46_key_refuted.
Print Assumptions C46_weights_refuted.
