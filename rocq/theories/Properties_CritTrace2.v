(** C52: the polishers and the pure fluid at the end of a critical curve. *)
From Coq Require Import Reals ZArith List Bool Lia Lra.
From Verif Require Import Json_model Cubic_model Float_model VLE_model VLE_spec Tracer_model Tracer_spec Tracer_proofs Properties_Tracer
  CritTrace_model CritTrace_spec CritTrace_proofs Properties_CritTrace.
Import ListNotations.
Open Scope R_scope.

(** ** The polishers *)
Lemma bind_val : forall A B (x : res A) (f : A -> res B) b, bind x f = Val b -> exists a, x = Val a /\ f a = Val b.
Proof. intros A B [a|e] f b H; cbn in H; [eauto|discriminate]. Qed.
(** The first polisher keeps the composition and the second one the temperature. *)
Theorem C52_polishers : forall qr conds z0 T rho r,
  (nth 0 (crit_polishers qr conds) (fun _ _ _ => Err NotImplemented) (Fin z0) T rho = Val r -> exists T' n, r = (Fin T', [Fin (n * z0); Fin (n * (1 - z0))])) /\
  (nth 1 (crit_polishers qr conds) (fun _ _ _ => Err NotImplemented) (Fin z0) T rho = Val r -> fst r = T).
Proof.
  intros qr conds z0 T rho r. split; intros H.
  - cbn [nth crit_polishers] in H. unfold critical_polish_fixedmolefrac in H. apply bind_val in H. destruct H as (r0 & _ & H). apply bind_val in H. destruct H as (x & _ & H).
    apply bind_val in H. destruct H as (r1 & _ & H). destruct (el x 0) as [a| |]; cbn [isfinite negb orb] in H; try discriminate. destruct (el x 1) as [b| |]; cbn [isfinite negb] in H; try discriminate.
    injection H as <-. exists a, b. cbn [fsub fopp fadd fmul]. reflexivity.
  - cbn [nth crit_polishers] in H. apply bind_val in H. destruct H as (x & _ & H). injection H as <-. reflexivity.
Qed.
(** What the solver has to do: a row which says that an unknown is zero is respected. *)
Definition respects_zero (qr : list (list fl) -> list fl -> list fl) : Prop := forall J b k j n, (k < length J)%nat -> (j < n)%nat ->
  (forall row, In row J -> length row = n) -> (forall i, (i < n)%nat -> el2 J k i = Fin (if Nat.eqb i j then 1 else 0)) -> el b k = Fin 0 -> length (qr J b) = n /\ el (qr J b) j = Fin 0.
(** What the conditions have to do: no numbers come out if none go in. *)
Definition propagates (conds : fl -> list fl -> res (list fl)) : Prop := forall T rho r, conds T rho = Val r -> isfinite (el r 0) = true -> isfinite (el r 1) = true ->
  isfinite T = true /\ forall i, (i < length rho)%nat -> isfinite (el rho i) = true.
Lemma finite_norm : forall a b c, isfinite (fsqrt (norm2 [a; b; c])) = true -> isfinite a = true /\ isfinite b = true /\ isfinite c = true.
Proof.
  intros [a|s|] [b|s'|] [c|s''|]; unfold norm2, fsum; cbn; try (destruct s); try (destruct s'); try (destruct s''); cbn; try discriminate; auto.
Qed.
Theorem C52_fixedrho : forall qr conds i T rho T' rho', respects_zero qr -> propagates conds -> (i < 2)%nat -> length rho = 2%nat ->
  critical_polish_fixedrho qr conds i (Fin T) (fin rho) = Val (T', rho') -> el rho' i = Fin (nth i rho 0).
Proof.
  intros qr conds i T rho T' rho' HQ HC Hi L H. unfold critical_polish_fixedrho in H. apply bind_val in H. destruct H as (_ & _ & H). apply bind_val in H. destruct H as (x & N & H).
  apply bind_val in H. destruct H as (_ & _ & H). destruct (_ || _); [discriminate|]. injection H as _ <-.
  destruct rho as [|r0 [|r1 [|]]]; try discriminate. set (v := nth i [r0; r1] 0) in *.
  assert (EV : nth i [Fin r0; Fin r1] NaN = Fin v) by (destruct i as [|[|]]; [reflexivity|reflexivity|lia]).
  assert (N' : newton qr (fixedrho_resid conds i (Fin v)) 30 [Fin T; Fin r0; Fin r1] (Fin 1e-10) = Val x) by (rewrite <- EV; exact N). clear N. rename N' into N.
  assert (G : forall iters x0 x, length x0 = 3%nat -> el x0 (S i) = Fin v -> newton qr (fixedrho_resid conds i (Fin v)) iters x0 (Fin 1e-10) = Val x -> length x = 3%nat /\ el x (S i) = Fin v).
  { clear N x. induction iters as [|iters IH]; intros x0 x L0 E0 N; [injection N as <-; auto|]. cbn [newton] in N.
    apply bind_val in N. destruct N as (res0 & F0 & N). apply bind_val in N. destruct N as (cols & C & N). cbv zeta in N.
    destruct (negb _) eqn:FE; [discriminate|]. apply negb_false_iff in FE.
    destruct x0 as [|t [|a [|b [|]]]]; try discriminate.
    assert (FI : isfinite t = true /\ isfinite a = true /\ isfinite b = true /\ exists u w, res0 = [u; w; Fin 0]).
    { unfold fixedrho_resid in F0. apply bind_val in F0. destruct F0 as (r & Hr & F0). injection F0 as <-. apply finite_norm in FE. destruct FE as (A & B & _).
      destruct (HC _ _ _ Hr A B) as (Ft & Fr). cbn in Ft. split; [exact Ft|]. split; [apply (Fr 0%nat); cbn; lia|]. split; [apply (Fr 1%nat); cbn; lia|].
      exists (el r 0), (el r 1). do 3 f_equal. destruct i as [|[|]]; [| |lia]; cbn in E0 |- *; rewrite E0; cbn; f_equal; ring. }
    destruct FI as (Ft & Fa & Fb & u & w & ->). destruct t as [t| |]; try discriminate. destruct a as [a| |]; try discriminate. destruct b as [b| |]; try discriminate. clear Ft Fa Fb.
    assert (DP : forall z, exists h, newton_dri (Fin z) = Fin h /\ h <> 0).
    { intros z. unfold newton_dri. cbn [fmul flt]. destruct (Rlt_dec (1e-6 * z) 1e-8) as [K|K]; eexists; (split; [reflexivity|lra]). }
    assert (CJ : length cols = 3%nat /\ forall j, (j < 3)%nat -> el (nth j cols []) 2 = Fin (if Nat.eqb j (S i) then 1 else 0)).
    { unfold newton_columns in C. cbn [length seq map_res el nth] in C. destruct (DP t) as (h0 & D0 & P0). destruct (DP a) as (h1 & D1 & P1). destruct (DP b) as (h2 & D2 & P2). rewrite D0, D1, D2 in C.
      unfold add_at in C. cbn [length seq map Nat.eqb el nth fadd] in C.
      assert (RS : forall x y z rr, fixedrho_resid conds i (Fin v) [x; y; z] = Val rr -> exists u' w', rr = [u'; w'; fsub (el [y; z] i) (Fin v)]).
      { intros x1 y z rr K. unfold fixedrho_resid in K. apply bind_val in K. destruct K as (q & _ & K). injection K as <-. eauto. }
      destruct (fixedrho_resid conds i (Fin v) [Fin (t + h0); Fin a; Fin b]) as [q0|] eqn:Q0; cbn [bind] in C; [|discriminate].
      destruct (fixedrho_resid conds i (Fin v) [Fin t; Fin (a + h1); Fin b]) as [q1|] eqn:Q1; cbn [bind] in C; [|discriminate].
      destruct (fixedrho_resid conds i (Fin v) [Fin t; Fin a; Fin (b + h2)]) as [q2|] eqn:Q2; cbn [bind] in C; [|discriminate].
      apply RS in Q0, Q1, Q2. destruct Q0 as (u0 & w0 & ->). destruct Q1 as (u1 & w1 & ->). destruct Q2 as (u2 & w2 & ->). injection C as <-. split; [reflexivity|].
      intros j Hj. unfold zip. cbn [combine map fst snd]. destruct j as [|[|[|j]]]; [| | |lia]; cbn [nth el]; (destruct i as [|[|]]; [| |lia]); cbn in E0 |- *; injection E0 as E0;
        (match goal with |- (if Req_EM_T ?h 0 then _ else _) = _ => destruct (Req_EM_T h 0); [contradiction|] end); f_equal; rewrite ?E0; field; auto. }
    destruct CJ as (LC & CJ).
    destruct (HQ (transposed 3 cols) (map fopp [u; w; Fin 0]) 2%nat (S i) 3%nat) as (LQ & EQ).
    - cbn. lia.
    - lia.
    - intros row I. unfold transposed in I. apply in_map_iff in I. destruct I as (m & <- & _). now rewrite map_length.
    - intros j Hj. unfold el2, transposed. cbn [seq map nth]. unfold el at 1. rewrite (nth_indep _ NaN (el [] 2)) by (rewrite map_length; lia). rewrite (map_nth (fun c => el c 2)). now apply CJ.
    - cbn [map el nth fopp]. f_equal. ring.
    - cbn [length] in N. set (q := qr _ _) in *. destruct q as [|q0 [|q1 [|q2 [|]]]]; try discriminate.
      assert (EX : el (zip fadd [Fin t; Fin a; Fin b] [q0; q1; q2]) (S i) = Fin v).
      { unfold zip. cbn [combine map fst snd]. destruct i as [|[|]]; [| |lia]; cbn in E0, EQ |- *; rewrite EQ; injection E0 as ->; cbn; f_equal; ring. }
      destruct (flt _ _); [injection N as <-; split; [reflexivity|exact EX]|]. exact (IH (zip fadd [Fin t; Fin a; Fin b] [q0; q1; q2]) x eq_refl EX N). }
  destruct (G 30%nat [Fin T; Fin r0; Fin r1] x eq_refl EV N) as (Lx & Ex).
  destruct x as [|x0 [|x1 [|x2 [|]]]]; try discriminate. destruct i as [|[|]]; [exact Ex|exact Ex|lia].
Qed.
Lemma columns_length : forall f x r0 cols, newton_columns f x r0 = Val cols -> length cols = length x.
Proof.
  intros f x r0 cols H. unfold newton_columns in H. assert (G : forall (g : nat -> res (list fl)) l c, map_res g l = Val c -> length c = length l).
  { induction l as [|i l IH]; intros c E; cbn in E; [injection E as <-; reflexivity|]. destruct (g i); [|discriminate]. destruct (map_res g l) as [c'|]; [|discriminate]. injection E as <-. cbn. f_equal. now apply IH. }
  apply G in H. now rewrite seq_length in H.
Qed.
Lemma newton_length : forall qr f iters x y tol, newton qr f iters x tol = Val y -> (forall x r, f x = Val r -> (0 < length r)%nat) ->
  (forall J b, length (qr J b) = length (nth 0 J [])) -> length y = length x.
Proof.
  intros qr f iters x y tol H Hf HQ. revert x H. induction iters as [|iters IH]; intros x H; [injection H as <-; reflexivity|]. cbn [newton] in H.
  apply bind_val in H. destruct H as (r0 & F0 & H). apply bind_val in H. destruct H as (cols & C & H). cbv zeta in H.
  assert (LX : length (zip fadd x (qr (transposed (length r0) cols) (map fopp r0))) = length x).
  { unfold zip. rewrite map_length, combine_length, HQ. apply Hf in F0. destruct (length r0); [lia|]. unfold transposed. cbn [seq map nth]. rewrite map_length, (columns_length _ _ _ _ C). lia. }
  destruct (negb _); [discriminate|]. destruct (flt _ _); [injection H as <-; exact LX|]. rewrite (IH _ H). exact LX.
Qed.
(** a solver that answers zero to zero *)
Definition zero_to_zero (qr : list (list fl) -> list fl -> list fl) : Prop := forall J b, length (qr J b) = length (nth 0 J []) /\
  ((forall i, (i < length b)%nat -> el b i = Fin 0) -> forall i, (i < length (nth 0 J []))%nat -> el (qr J b) i = Fin 0).
Lemma newton_fixed : forall qr f iters xs n, zero_to_zero qr -> (0 < n)%nat -> f (map Fin xs) = Val (repeat (Fin 0) n) -> (forall y, exists r, f y = Val r) ->
  newton qr f (S iters) (map Fin xs) (Fin 1e-10) = Val (map Fin xs).
Proof.
  intros qr f iters xs n HQ Hn Hf Tot. cbn [newton]. rewrite Hf. cbn [bind].
  assert (C : exists cols, newton_columns f (map Fin xs) (repeat (Fin 0) n) = Val cols).
  { unfold newton_columns. assert (G : forall (g : nat -> res (list fl)) l, (forall i, exists c, g i = Val c) -> exists c, map_res g l = Val c).
    { intros g l Hg. induction l as [|i l IH]; [now exists []|]. destruct (Hg i) as (c & E). destruct IH as (cs & E'). exists (c :: cs). cbn. now rewrite E, E'. }
    apply G. intro i. destruct (Tot (add_at i (newton_dri (el (map Fin xs) i)) (map Fin xs))) as (r & E). rewrite E. cbn [bind]. eauto. }
  destruct C as (cols & C). rewrite C. cbn [bind]. cbv zeta. rewrite repeat_length.
  assert (NZ : forall k, norm2 (repeat (Fin 0) k) = Fin 0).
  { unfold norm2, fsum. induction k as [|k IH]; [reflexivity|]. cbn [repeat map fold_right]. rewrite IH. cbn. f_equal. ring. }
  rewrite NZ. cbn [fsqrt]. destruct (Rlt_dec 0 0); [lra|]. rewrite sqrt_0. cbn [isfinite negb flt]. destruct (Rlt_dec 0 1e-10); [|lra]. f_equal.
  destruct (HQ (transposed n cols) (map fopp (repeat (Fin 0) n))) as (LQ & EQ).
  assert (LR : length (nth 0 (transposed n cols) []) = length xs).
  { destruct n; [lia|]. unfold transposed. cbn [seq map nth]. rewrite map_length, (columns_length _ _ _ _ C), map_length. reflexivity. }
  rewrite LR in *. set (q := qr _ _) in *.
  assert (Z : forall i, (i < length xs)%nat -> el q i = Fin 0).
  { apply EQ. intros i Hi. rewrite map_length, repeat_length in Hi. unfold el. rewrite (nth_indep _ NaN (fopp (Fin 0))) by (rewrite map_length, repeat_length; exact Hi).
    rewrite map_nth, nth_repeat. cbn. f_equal. ring. }
  clearbody q. clear - LQ Z. revert q LQ Z. induction xs as [|x xs IH]; intros [|a q] L Z; try discriminate; [reflexivity|]. cbn in L. unfold zip. cbn [map combine fst snd]. f_equal.
  - assert (H := Z 0%nat ltac:(cbn; lia)). cbn in H. rewrite H. cbn. f_equal. ring.
  - apply IH; [lia|]. intros i Hi. apply (Z (S i)). cbn. lia.
Qed.
(** The conditions can be evaluated at the state a polisher returns. *)
Theorem C52_polished_evaluated : forall qr conds p z0 T rho T' rho', length rho = 2%nat -> In p (crit_polishers qr conds) -> (forall J b, length (qr J b) = length (nth 0 J [])) ->
  p (Fin z0) T rho = Val (T', rho') -> exists r, conds T' rho' = Val r.
Proof.
  intros qr conds p z0 T rho T' rho' L I LQ H.
  assert (FR : forall i, (i < 2)%nat -> critical_polish_fixedrho qr conds i T rho = Val (T', rho') -> exists r, conds T' rho' = Val r).
  { clear H. intros i Hi H. unfold critical_polish_fixedrho in H. apply bind_val in H. destruct H as (_ & _ & H). apply bind_val in H. destruct H as (x & N & H).
    apply bind_val in H. destruct H as (rr & E & H). destruct (_ || _); [discriminate|]. injection H as <- <-.
    unfold fixedrho_resid in E. apply bind_val in E. destruct E as (r & E & _). exists r.
    assert (LX : length x = 3%nat).
    { apply newton_length in N; [exact N| |exact LQ]. intros y r0 Hy. unfold fixedrho_resid in Hy. apply bind_val in Hy. destruct Hy as (? & _ & Hy). injection Hy as <-. cbn. lia. }
    destruct x as [|a [|b [|c [|]]]]; try discriminate. exact E. }
  destruct I as [<-|[<-|[<-|[<-|[]]]]].
  - unfold critical_polish_fixedmolefrac in H. apply bind_val in H. destruct H as (r0 & _ & H). apply bind_val in H. destruct H as (x & _ & H).
    apply bind_val in H. destruct H as (r1 & E & H). destruct (el x 0) as [a| |] eqn:E0; cbn [isfinite negb orb] in H; try discriminate. destruct (el x 1) as [b| |] eqn:E1; cbn [isfinite negb] in H; try discriminate.
    injection H as <- <-. exists r1. unfold molefrac_resid in E. rewrite E0, E1 in E. cbn [fsub fopp fadd fmul] in E |- *. rewrite (Rmult_comm b z0), (Rmult_comm b (1 + - z0)). exact E.
  - apply bind_val in H. destruct H as (x & H & E). injection E as <- <-. unfold critical_polish_fixedT in H. apply bind_val in H. destruct H as (_ & _ & H). apply bind_val in H. destruct H as (y & _ & H).
    apply bind_val in H. destruct H as (r & E & H). destruct (_ || _); [discriminate|]. injection H as <-. eauto.
  - apply (FR 0%nat); [lia|exact H].
  - apply (FR 1%nat); [lia|exact H].
Qed.
(** A critical state stays what it is (the solver answers zero to zero). *)
Theorem C52_polished_fixed : forall qr conds p T r0 r1, In p (crit_polishers qr conds) -> 0 < r0 -> 0 < r1 ->
  zero_to_zero qr ->
  conds (Fin T) [Fin r0; Fin r1] = Val [Fin 0; Fin 0] -> (forall t rho, exists r, conds t rho = Val r) ->
  p (Fin (r0 / (r0 + r1))) (Fin T) [Fin r0; Fin r1] = Val (Fin T, [Fin r0; Fin r1]).
Proof.
  intros qr conds p T r0 r1 I P0 P1 HQ HC Tot.
  assert (FR : forall i, (i < 2)%nat -> critical_polish_fixedrho qr conds i (Fin T) [Fin r0; Fin r1] = Val (Fin T, [Fin r0; Fin r1])).
  { intros i Hi. set (v := el [Fin r0; Fin r1] i).
    assert (F : fixedrho_resid conds i v [Fin T; Fin r0; Fin r1] = Val (repeat (Fin 0) 3)).
    { unfold fixedrho_resid. cbn [el nth]. rewrite HC. cbn [bind el nth repeat]. do 4 f_equal. unfold v. destruct i as [|[|]]; [| |lia]; cbn; f_equal; ring. }
    unfold critical_polish_fixedrho. fold v. cbv zeta. change [Fin T; el [Fin r0; Fin r1] 0; el [Fin r0; Fin r1] 1] with (map Fin [T; r0; r1]).
    change (map Fin [T; r0; r1]) with [Fin T; Fin r0; Fin r1] at 1. rewrite F. cbn [bind].
    rewrite (newton_fixed qr (fixedrho_resid conds i v) 29 [T; r0; r1] 3 HQ ltac:(lia) F).
    - cbn [bind map]. rewrite F. reflexivity.
    - intro y. unfold fixedrho_resid. destruct (Tot (el y 0) [el y 1; el y 2]) as (r & ->). cbn [bind]. eauto. }
  destruct I as [<-|[<-|[<-|[<-|[]]]]].
  - set (z0 := r0 / (r0 + r1)). assert (F : molefrac_resid conds (Fin z0) (map Fin [T; r0 + r1]) = Val (repeat (Fin 0) 2)).
    { unfold molefrac_resid. cbn [map el nth fmul fsub fadd fopp]. replace (z0 * (r0 + r1)) with r0 by (unfold z0; field; lra). replace ((1 + - z0) * (r0 + r1)) with r1 by (unfold z0; field; lra). exact HC. }
    unfold critical_polish_fixedmolefrac. cbv zeta. change [Fin T; fadd (el [Fin r0; Fin r1] 0) (el [Fin r0; Fin r1] 1)] with (map Fin [T; r0 + r1]). rewrite F. cbn [bind].
    rewrite (newton_fixed qr (molefrac_resid conds (Fin z0)) 29 [T; r0 + r1] 2 HQ ltac:(lia) F).
    + cbn [bind]. rewrite F. cbn [bind map el nth isfinite negb orb fmul fsub fadd fopp]. replace ((r0 + r1) * z0) with r0 by (unfold z0; field; lra). replace ((r0 + r1) * (1 + - z0)) with r1 by (unfold z0; field; lra). reflexivity.
    + intro y. apply Tot.
  - unfold critical_polish_fixedT. rewrite HC. cbn [bind]. assert (N := newton_fixed qr (conds (Fin T)) 29 [r0; r1] 2 HQ ltac:(lia) HC (Tot (Fin T))). cbn [map] in N. rewrite N. cbn [bind]. rewrite HC. reflexivity.
  - apply (FR 0%nat). lia.
  - apply (FR 1%nat). lia.
Qed.
Example C52_polished_met : zero_to_zero (fun J _ => repeat (Fin 0) (length (nth 0 J []))) /\
  critical_polish_fixedT (fun J _ => repeat (Fin 0) (length (nth 0 J []))) (fun _ _ => Val [Fin 0; Fin 0]) (Fin 300) [Fin 1; Fin 2] = Val [Fin 1; Fin 2].
Proof.
  assert (Z : zero_to_zero (fun J _ => repeat (Fin 0) (length (nth 0 J [])))).
  { intros J b. split; [apply repeat_length|]. intros _ i Hi. unfold el. rewrite (nth_indep _ NaN (Fin 0)) by now rewrite repeat_length. apply nth_repeat. }
  split; [exact Z|]. assert (H := C52_polished_fixed _ (fun _ _ => Val [Fin 0; Fin 0]) _ 300 1 2 (or_intror (or_introl eq_refl)) ltac:(lra) ltac:(lra) Z eq_refl ltac:(eauto)).
  cbn beta in H. destruct (critical_polish_fixedT _ _ _ _); [|discriminate]. cbn in H. congruence.
Qed.
(** The tests after Newton's method look at the given temperature and at the second
    concentration: a temperature (fixed concentration) or a first concentration (fixed
    temperature) that is not a number is returned. *)
Theorem C52_polish_tests_refuted : exists qr qr' conds, (forall t rho, exists r, conds t rho = Val r) /\
  critical_polish_fixedrho qr conds 0 (Fin 300) [Fin 1; Fin 2] = Val (NaN, [Fin 1; Fin 2]) /\ critical_polish_fixedT qr' conds (Fin 300) [Fin 1; Fin 2] = Val [NaN; Fin 2].
Proof.
  exists (fun _ _ => [NaN; Fin 0; Fin 0]), (fun _ _ => [NaN; Fin 0]), (fun _ _ => Val [Fin 0; Fin 0]). split; [eauto|].
  assert (Z2 : flt (fsqrt (norm2 [Fin 0; Fin 0])) (Fin 1e-10) = true /\ isfinite (fsqrt (norm2 [Fin 0; Fin 0])) = true).
  { unfold norm2, fsum. cbn [map fold_right fmul fadd fsqrt]. destruct (Rlt_dec _ 0); [lra|]. replace (0 * 0 + (0 * 0 + 0)) with 0 by ring. rewrite sqrt_0. cbn [flt isfinite]. destruct (Rlt_dec 0 1e-10); [split; reflexivity|lra]. }
  destruct Z2 as (Z2 & I2).
  assert (Z3 : forall a, a = 0 -> flt (fsqrt (norm2 [Fin 0; Fin 0; Fin a])) (Fin 1e-10) = true /\ isfinite (fsqrt (norm2 [Fin 0; Fin 0; Fin a])) = true).
  { intros a ->. unfold norm2, fsum. cbn [map fold_right fmul fadd fsqrt]. destruct (Rlt_dec _ 0); [lra|]. replace (0 * 0 + (0 * 0 + (0 * 0 + 0))) with 0 by ring. rewrite sqrt_0. cbn [flt isfinite]. destruct (Rlt_dec 0 1e-10); [split; reflexivity|lra]. }
  destruct (Z3 (1 + - (1)) ltac:(ring)) as (Z & I3).
  split.
  - unfold critical_polish_fixedrho. cbn [newton]. unfold fixedrho_resid at 1 2. cbn [bind el nth fsub fopp fadd].
    unfold newton_columns. cbn [length seq map_res]. unfold fixedrho_resid at 1 2 3. cbn [bind]. cbv zeta. rewrite Z, I3. cbn [negb]. unfold zip. cbn [combine map fst snd fadd bind]. unfold fixedrho_resid. cbn [bind el nth isfinite negb orb tl]. do 3 f_equal; [f_equal; ring|f_equal; f_equal; ring].
  - unfold critical_polish_fixedT. cbn [newton bind]. unfold newton_columns. cbn [length seq map_res bind]. cbv zeta. rewrite Z2, I2. cbn [negb]. unfold zip. cbn [combine map fst snd fadd bind el nth isfinite negb orb]. do 2 f_equal. f_equal. f_equal. ring.
Qed.
(** ** Polished states need not be critical: Newton's method stops after thirty steps. *)
Definition flat_conds (T : fl) (rho : list fl) : res (list fl) := Val [Fin 1; Fin 1].
Definition zero_qr (J : list (list fl)) (b : list fl) : list fl := repeat (Fin 0) (length (nth 0 J [])).
Lemma flat_newton : forall iters x, isfinite (el x 0) = true -> isfinite (el x 1) = true -> length x = 2%nat -> forall z0, newton zero_qr (molefrac_resid flat_conds z0) iters x (Fin 1e-10) = Val x.
Proof.
  induction iters as [|iters IH]; intros x F0 F1 L z0; [reflexivity|]. destruct x as [|a [|b [|]]]; try discriminate. cbn in F0, F1. destruct a as [a| |]; try discriminate. destruct b as [b| |]; try discriminate.
  cbn [newton]. unfold molefrac_resid at 1, flat_conds at 1. cbn [bind]. unfold newton_columns. cbn [length seq map_res]. unfold molefrac_resid at 1 2, flat_conds at 1 2. cbn [bind].
  unfold norm2, fsum. cbn [map fold_right fmul fadd fsqrt]. destruct (Rlt_dec _ 0); [lra|]. cbn [isfinite negb flt].
  assert (S1 : 1 < sqrt (1 * 1 + (1 * 1 + 0))). { rewrite <- sqrt_1 at 1. apply sqrt_lt_1; lra. }
  destruct (Rlt_dec _ _) as [K|_]; [lra|]. replace (zip fadd [Fin a; Fin b] _) with [Fin a; Fin b]; [now apply IH|].
  unfold zip, zero_qr. cbn. do 2 f_equal; [f_equal; ring|]. f_equal. f_equal. ring.
Qed.
Theorem C52_polish_refuted : exists o qr conds, c_polish o = true /\ forall T rho0 rho1, 0 < T -> 0 < rho0 -> 0 < rho1 ->
  crit_polished (crit_polishers qr conds) o [Fin T; Fin rho0; Fin rho1] = Val (Some [Fin T; Fin rho0; Fin rho1]) /\ conds (Fin T) [Fin rho0; Fin rho1] = Val [Fin 1; Fin 1].
Proof.
  exists {| c_init_dt := Fin 10; c_max_dt := Fin 10000000000; c_T_tol := Fin 1e-6; c_init_c := Fin 1; c_small_T_count := 5; c_order := 5;
    c_max_steps := 1000; c_skip_dircheck := 1; c_polish := true; c_reltol_T := Fin 0.01; c_reltol_rho := Fin 0.05; c_terminate_negative := true; c_calc_stability := false;
    c_stability_rel_drho := Fin 0.001; c_polish_throws := false; c_endpoint := false |}, zero_qr, flat_conds. split; [reflexivity|]. intros T r0 r1 HT H0 H1. split; [|reflexivity].
  unfold crit_polished. cbn [c_polish]. cbn [tl el nth crit_polishers first_polished]. unfold frac0, fsum. cbn [fold_right el nth fadd fdiv]. destruct (Req_EM_T (r0 + (r1 + 0)) 0) as [K|_]; [lra|].
  unfold critical_polish_fixedmolefrac. cbv zeta. unfold molefrac_resid at 1, flat_conds at 1. cbn [bind el nth fadd]. rewrite flat_newton by reflexivity. cbn [bind]. unfold molefrac_resid, flat_conds. cbn [bind el nth isfinite negb orb].
  assert (E0 : fmul (Fin (r0 + r1)) (Fin (r0 / (r0 + (r1 + 0)))) = Fin r0) by (cbn; f_equal; field; lra).
  assert (E1 : fmul (Fin (r0 + r1)) (fsub (Fin 1) (Fin (r0 / (r0 + (r1 + 0))))) = Fin r1) by (cbn; f_equal; field; lra).
  rewrite E0, E1.
  assert (C : change_refused {| c_init_dt := Fin 10; c_max_dt := Fin 10000000000; c_T_tol := Fin 1e-6; c_init_c := Fin 1; c_small_T_count := 5; c_order := 5;
    c_max_steps := 1000; c_skip_dircheck := 1; c_polish := true; c_reltol_T := Fin 0.01; c_reltol_rho := Fin 0.05; c_terminate_negative := true; c_calc_stability := false;
    c_stability_rel_drho := Fin 0.001; c_polish_throws := false; c_endpoint := false |} (Fin T) [Fin r0; Fin r1] (Fin T) [Fin r0; Fin r1] = false).
  { unfold change_refused. cbn [c_reltol_T c_reltol_rho combine existsb fst snd fmul fsub fopp fadd fabs flt].
    assert (Z : forall a, Rabs (a + - a) = 0) by (intro a; rewrite Rplus_opp_r; apply Rabs_R0). rewrite !Z.
    destruct (Rlt_dec (0.01 * T) 0); [lra|]. destruct (Rlt_dec (0.05 * r0) 0); [lra|]. destruct (Rlt_dec (0.05 * r1) 0); [lra|]. reflexivity. }
  rewrite C. reflexivity.
Qed.

(** ** The pure fluid at the end *)
Definition euler_options (steps : Z) (pure : bool) : coptions := {| c_init_dt := Fin 10; c_max_dt := Fin 10000000000; c_T_tol := Fin 1e-6; c_init_c := Fin 1; c_small_T_count := 5; c_order := 1;
  c_max_steps := steps; c_skip_dircheck := 1; c_polish := false; c_reltol_T := Fin 0.01; c_reltol_rho := Fin 0.05; c_terminate_negative := true; c_calc_stability := false;
  c_stability_rel_drho := Fin 0.001; c_polish_throws := false; c_endpoint := pure |}.
Definition some_number (T : fl) (rho : list fl) : res fl := Val (Fin 0).
Definition no_stable (T : fl) (rho : list fl) (d : fl) : res bool := Val true.
(** a straight critical curve *)
Definition straight (a b : R) (T : fl) (rho : list fl) : res (list fl) := Val [Fin a; Fin b].
Lemma straight_deriv : forall a b c T r0 r1, a * a + b * b = 25 -> 0 <= r0 -> 0 <= r1 -> forall steps pure,
  crit_deriv (straight a b) (euler_options steps pure) (Fin c) [] [T; Fin r0; Fin r1] = Val [Fin (c / 5); Fin (c / 5 * a); Fin (c / 5 * b)].
Proof.
  intros a b c T r0 r1 H25 H0 H1 steps pure. assert (SQ : sumsq [a; b] = 25) by (unfold sumsq; cbn [fold_right]; lra).
  assert (S5 : sqrt 25 = 5) by (replace 25 with (5 * 5) by ring; apply sqrt_square; lra).
  destruct (C52_tangent (straight a b) (euler_options steps pure) c [] [T; Fin r0; Fin r1] [a; b] eq_refl ltac:(rewrite SQ; lra)) as (k & K & E & _).
  { intros _ [|[|i]] Hi; cbn in Hi; unfold less; cbn; try lia; [destruct (Rlt_dec r0 0)|destruct (Rlt_dec r1 0)]; try lra; discriminate. }
  destruct K as [->|(_ & K)]; [|contradiction]. rewrite E, SQ, S5. reflexivity.
Qed.
Lemma straight_negative : forall a b c T r0 r1 steps pure, r0 < 0 -> crit_deriv (straight a b) (euler_options steps pure) (Fin c) [] [T; Fin r0; Fin r1] = Err StdInvalidArgument.
Proof. intros. unfold crit_deriv. cbn [euler_options c_terminate_negative tl]. unfold any_negative. cbn [existsb flt]. destruct (Rlt_dec r0 0); [reflexivity|lra]. Qed.
Definition flat_trace (a b : R) (solve_pure : nat -> fl -> fl -> res (fl * fl)) (o : coptions) :=
  trace_critical_arclength_binary (fun _ _ _ _ => Threw) (straight a b) some_number flat_conds some_number no_stable [] solve_pure o.
Ltac opts := repeat match goal with |- context [c_init_dt (euler_options ?a ?b)] => change (c_init_dt (euler_options a b)) with (Fin 10) | |- context [c_max_dt (euler_options ?a ?b)] => change (c_max_dt (euler_options a b)) with (Fin 10000000000) | |- context [c_T_tol (euler_options ?a ?b)] => change (c_T_tol (euler_options a b)) with (Fin 1e-6) | |- context [c_init_c (euler_options ?a ?b)] => change (c_init_c (euler_options a b)) with (Fin 1) | |- context [c_small_T_count (euler_options ?a ?b)] => change (c_small_T_count (euler_options a b)) with 5%Z | |- context [c_order (euler_options ?a ?b)] => change (c_order (euler_options a b)) with 1%Z | |- context [c_max_steps (euler_options ?a ?b)] => change (c_max_steps (euler_options a b)) with a | |- context [c_skip_dircheck (euler_options ?a ?b)] => change (c_skip_dircheck (euler_options a b)) with 1%Z | |- context [c_polish (euler_options ?a ?b)] => change (c_polish (euler_options a b)) with false | |- context [c_terminate_negative (euler_options ?a ?b)] => change (c_terminate_negative (euler_options a b)) with true | |- context [c_calc_stability (euler_options ?a ?b)] => change (c_calc_stability (euler_options a b)) with false | |- context [c_endpoint (euler_options ?a ?b)] => change (c_endpoint (euler_options a b)) with b end.
Ltac decide_all := repeat match goal with |- context [Rlt_dec ?x ?y] => destruct (Rlt_dec x y); try lra | |- context [Req_EM_T ?x ?y] => destruct (Req_EM_T x y); try lra end.
(** A pure fluid is appended although the last step is not near one: both concentrations are
    positive, grow, and stay positive with another step of the same size. *)
Theorem C52_endpoint_refuted : exists out q qe, flat_trace 3 4 (fun _ _ _ => Val (Fin 500, Fin 9000)) (euler_options 1 true) 2 (Fin 300) [Fin 1; Fin 1] = Some (Val (out ++ [q; qe])) /\
  cp_x q = [Fin (300 + 10 * (1 / 5)); Fin (1 + 10 * (1 / 5 * 3)); Fin (1 + 10 * (1 / 5 * 4))] /\ cp_dx q = [Fin (1 / 5); Fin (1 / 5 * 3); Fin (1 / 5 * 4)] /\
  cp_x qe = [Fin 500; Fin 0; Fin 9000].
Proof.
  do 3 eexists. split; [|split; [|split]].
  - unfold flat_trace, trace_critical_arclength_binary. change (c_init_c (euler_options 1 true)) with (Fin 1). rewrite straight_deriv by lra. cbv zeta.
    replace (initial_c _ _ _ _) with (Fin 1); [|unfold initial_c, zip; opts; cbn [tl combine map fst snd fmul fadd existsb flt orb]; decide_all; reflexivity].
    opts; cbn [crit_loop Z.ltb Z.compare cs_last cs_x]. rewrite straight_deriv by lra. cbn [bind Z.eqb Nat.eqb andb].
    unfold crit_store. cbn [cs_x el nth tl some_number flat_conds bind cs_last cs_t]. rewrite straight_deriv by lra. opts; cbn [bind app].
    unfold crit_attempt. opts; cbn [Z.eqb Pos.eqb cs_last cs_x cs_t cs_dt]. rewrite straight_deriv by lra. unfold zip. opts; cbn [combine map fst snd fmul fadd tl].
    unfold out_of_range, frac0, fsum. cbn [el nth fold_right fadd fdiv]. destruct (Req_EM_T _ 0); [lra|]. cbn [flt].
    assert (Z0 : 0 < (1 + 10 * (1 / 5 * 3)) / (1 + 10 * (1 / 5 * 3) + (1 + 10 * (1 / 5 * 4) + 0)) < 1) by (replace (_ / _) with (7 / 16) by field; lra).
    destruct (Rlt_dec _ 0); [lra|]. destruct (Rlt_dec 1 _); [lra|]. cbn [orb]. unfold crit_polished. opts; cbn [Z.leb Z.compare]. cbv zeta. cbn [tl el nth fold_right fadd fdiv].
    destruct (Req_EM_T _ 0); [lra|]. cbn [flt]. destruct (Rlt_dec (_ / _) 0); [lra|]. destruct (Rlt_dec 1 _); [lra|]. cbn [orb cs_x tl el nth cs_last cs_t]. unfold some_number, flat_conds at 1. cbn [bind].
    rewrite straight_deriv by lra. opts; cbn [bind].
    match goal with |- context [(5 <? ?n)%Z] => replace (5 <? n)%Z with false by (destruct (flt _ _); reflexivity) end. opts; cbn [app]. change (0 <? 1)%Z with true. change (0 + 1 <? 1)%Z with false. cbv iota. opts. unfold endpoint. cbn [cs_last cs_x]. rewrite straight_deriv by lra. cbn [bind cs_x el nth tl cs_dt].
    unfold zip. cbn [combine map fst snd fmul fadd existsb flt]. destruct (Rlt_dec 0 _) as [_|K]; [|exfalso; apply K; lra]. cbn [orb].
    assert (LG : larger [Fin (1 + 10 * (1 / 5 * 3)); Fin (1 + 10 * (1 / 5 * 4))] = 1%nat) by (unfold larger; cbn [el nth flt]; destruct (Rlt_dec _ _); [reflexivity|lra]). rewrite LG. cbn [bind Nat.eqb cs_x el nth tl cs_last cs_t].
    unfold crit_store. cbn [bind Nat.eqb cs_x el nth tl cs_last cs_t]. unfold some_number, flat_conds. cbn [bind]. rewrite straight_deriv by lra. opts; cbn [bind].
    match goal with |- Some (Val ([?a; ?b] ++ [?c])) = _ => change ([a; b] ++ [c]) with ([a] ++ [b; c]) end. reflexivity.
  - reflexivity.
  - reflexivity.
  - reflexivity.
Qed.
(** If the trace has left the range of compositions, the option makes it throw and all its
    points are lost. *)
Theorem C52_endpoint_throws_refuted : forall solve_pure,
  (exists q, flat_trace 3 (-4) solve_pure (euler_options 1000 false) 2 (Fin 300) [Fin 1; Fin 5] = Some (Val [q])) /\
  flat_trace 3 (-4) solve_pure (euler_options 1000 true) 2 (Fin 300) [Fin 1; Fin 5] = Some (Err StdInvalidArgument).
Proof.
  intros solve_pure.
  assert (G : forall pure, exists q, flat_trace 3 (-4) solve_pure (euler_options 1000 pure) 2 (Fin 300) [Fin 1; Fin 5] = Some (if pure then Err StdInvalidArgument else Val [q])).
  { intros pure. eexists. unfold flat_trace, trace_critical_arclength_binary. change (c_init_c (euler_options 1000 pure)) with (Fin 1). rewrite straight_deriv by lra. cbv zeta.
    replace (initial_c _ _ _ _) with (Fin (1 * -1)); [|unfold initial_c, zip; opts; cbn [tl combine map fst snd fmul fadd existsb flt orb]; decide_all; reflexivity].
    opts; cbn [crit_loop Z.ltb Z.compare cs_last cs_x]. rewrite straight_deriv by lra. cbn [bind Z.eqb Nat.eqb andb].
    unfold crit_store. cbn [cs_x el nth tl some_number flat_conds bind cs_last cs_t]. rewrite straight_deriv by lra. opts; cbn [bind app].
    unfold crit_attempt. opts; cbn [Z.eqb Pos.eqb cs_last cs_x cs_t cs_dt]. rewrite straight_deriv by lra. unfold zip. opts; cbn [combine map fst snd fmul fadd tl].
    unfold out_of_range, frac0, fsum. cbn [el nth fold_right fadd fdiv]. destruct (Req_EM_T _ 0); [lra|]. cbn [flt].
    assert (Z0 : (1 + 10 * (1 * -1 / 5 * 3)) / (1 + 10 * (1 * -1 / 5 * 3) + (5 + 10 * (1 * -1 / 5 * -4) + 0)) < 0) by (replace (_ / _) with (- (5 / 8)) by field; lra).
    destruct (Rlt_dec _ 0); [|lra]. opts; cbn [orb]. destruct pure; [|reflexivity]. change (0 <? 1000)%Z with true. cbv iota. unfold endpoint. cbn [cs_last cs_x]. rewrite straight_negative by lra. reflexivity. }
  split; [destruct (G false) as (q & H); now exists q|]. now destruct (G true) as (q & H).
Qed.
(** The density with which the pure fluid is sought is the concentration of the *other*
    component where that of the sought one vanishes. *)
Theorem C52_endpoint_guess_refuted : forall drhodT pressure conds splus stable o c s T rho dT drho i, cs_x s = Fin T :: fin rho -> length rho = 2%nat -> length drho = 2%nat ->
  crit_deriv drhodT o c (cs_last s) (cs_x s) = Val (fin (dT :: drho)) -> (i < 2)%nat -> nth (1 - i) rho 0 < nth i rho 0 -> nth i drho 0 <> 0 ->
  forall sp sp' : nat -> fl -> fl -> res (fl * fl), (forall T', sp i T' (Fin (nth (1 - i) rho 0 - nth (1 - i) drho 0 * nth i rho 0 / nth i drho 0)) = sp' i T' (Fin (nth (1 - i) rho 0 - nth (1 - i) drho 0 * nth i rho 0 / nth i drho 0))) ->
  endpoint drhodT pressure conds splus stable sp o c s = endpoint drhodT pressure conds splus stable sp' o c s.
Proof.
  intros drhodT pressure conds splus stable o c s T rho dT drho i EX L1 L2 D Hi LT NZ sp sp' HS. unfold endpoint. rewrite D. cbn [bind]. rewrite EX.
  destruct rho as [|r0 [|r1 [|]]]; try discriminate. destruct drho as [|d0 [|d1 [|]]]; try discriminate. cbn [fin map tl]. cbv zeta. destruct (existsb _ _); [|reflexivity].
  assert (LG : larger [Fin r0; Fin r1] = i).
  { unfold larger. cbn [el nth flt]. destruct i as [|[|]]; [| |lia]; cbn [nth Nat.sub] in LT; destruct (Rlt_dec r0 r1); try reflexivity; lra. }
  rewrite LG. unfold fsum, zip. cbn [combine map fst snd fold_right].
  assert (SZ : fdiv (fopp (el [Fin r0; Fin r1] i)) (el [Fin d0; Fin d1] i) = Fin (- nth i [r0; r1] 0 / nth i [d0; d1] 0)).
  { destruct i as [|[|]]; [| |lia]; cbn [el nth fopp fdiv] in *; destruct (Req_EM_T _ 0); try contradiction; reflexivity. }
  rewrite SZ. cbn [fmul fadd]. match goal with |- bind (sp i ?t (Fin ?g)) _ = _ => replace g with (nth (1 - i) [r0; r1] 0 - nth (1 - i) [d0; d1] 0 * nth i [r0; r1] 0 / nth i [d0; d1] 0) end.
  - now rewrite HS.
  - destruct i as [|[|]]; [| |lia]; cbn [nth Nat.sub] in *; field; auto.
Qed.
(** What the theorems need is met. *)
Example C52_met : exists q, flat_trace 3 (-4) (fun _ _ _ => Val (Fin 500, Fin 9000)) (euler_options 1000 false) 2 (Fin 300) [Fin 1; Fin 5] = Some (Val [q]).
Proof. exact (proj1 (C52_endpoint_throws_refuted _)). Qed.
Example C52_respects_met : respects_zero (fun J b => repeat (Fin 0) (length (nth 0 J []))) /\
  propagates (fun T rho => if isfinite T && forallb isfinite rho then Val [Fin 0; Fin 0] else Val [NaN; NaN]).
Proof.
  split.
  - intros J b k j n Hk Hj HJ _ _. assert (L : length (nth 0 J []) = n) by (apply HJ, nth_In; lia). rewrite repeat_length, L. split; [reflexivity|]. unfold el. revert j Hj. generalize n. clear.
    induction n as [|n IH]; intros [|j] Hj; try lia; [reflexivity|]. cbn [repeat nth]. apply IH. lia.
  - intros T rho r H A _. destruct (isfinite T && forallb isfinite rho) eqn:F; injection H as <-; [|discriminate]. apply andb_true_iff in F. destruct F as (F1 & F2).
    split; [exact F1|]. intros i Hi. rewrite forallb_forall in F2. apply F2, nth_In. exact Hi.
Qed.
Print Assumptions C52_polishers.
Print Assumptions C52_fixedrho.
Print Assumptions C52_polished_evaluated.
Print Assumptions C52_polished_fixed.
Print Assumptions C52_polish_tests_refuted.
Print Assumptions C52_polish_refuted.
Print Assumptions C52_endpoint_refuted.
Print Assumptions C52_endpoint_throws_refuted.
Print Assumptions C52_endpoint_guess_refuted.
