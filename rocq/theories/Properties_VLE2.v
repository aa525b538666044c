(** C44, C45: components that are absent from a phase. *)
From Coq Require Import Reals ZArith String List Bool Lia Lra.
From Verif Require Import Json_model Cubic_model Derivs_model Vec_spec Float_model VLE_model VLE_spec VLE_proofs VLE_proofs2 VLE_proofs3 Properties_VLE.
Import ListNotations.
Open Scope R_scope.

(** A component that is missing from either phase (its concentration is not positive) has
    no ideal-gas contribution: its row asks for equal derivatives of the residual energy,
    and the entries of the Jacobian in that row are the second derivatives. *)
Theorem C44_absent_rows : forall m T RT xspec L V psiL gL hL psiV gV hV i, (i < 2)%nat -> length L = 2%nat -> length V = 2%nat ->
  e_fgh m (Fin T) (fin L) = ok (psiL, fin gL, fins hL) -> e_fgh m (Fin T) (fin V) = ok (psiV, fin gV, fins hV) ->
  length gL = 2%nat -> length gV = 2%nat -> length hL = 2%nat -> length hV = 2%nat ->
  (forall k, (k < 2)%nat -> length (nth k hL []) = 2%nat /\ length (nth k hV []) = 2%nat) ->
  nth i L 0 <= 0 \/ nth i V 0 <= 0 ->
  exists r J, tx_assemble m (Fin T) RT xspec (fin (L ++ V)) = ok (r, J) /\ el r i = Fin (nth i gL 0 - nth i gV 0) /\
    forall k, (k < 2)%nat -> el2 J i k = Fin (nth k (nth i hL []) 0) /\ el2 J i (2 + k) = Fin (- nth k (nth i hV []) 0).
Proof.
  intros m T RT xspec L V psiL gL hL psiV gV hV i Hi LL LV EL EV LgL LgV LhL LhV Lh Z.
  assert (N : nonzero (fin L) (fin V) i = false).
  { unfold nonzero. rewrite !el_fin by lia. unfold flt. destruct (Rlt_dec 0 (nth i L 0)), (Rlt_dec 0 (nth i V 0)); cbn; auto; lra. }
  assert (F1 : firstn 2 (fin (L ++ V)) = fin L) by (destruct L as [|? [|? [|]]]; try discriminate; reflexivity).
  assert (F2 : skipn 2 (fin (L ++ V)) = fin V) by (destruct L as [|? [|? [|]]]; try discriminate; reflexivity).
  unfold tx_assemble. rewrite F1, F2, EL. cbn [obind ok]. rewrite EV. cbn [obind ok]. eexists _, _. split; [reflexivity|].
  destruct hL as [|a1 [|a2 [|]]]; try discriminate. destruct hV as [|b1 [|b2 [|]]]; try discriminate.
  destruct (Lh 0%nat ltac:(lia)) as [A1 B1]. destruct (Lh 1%nat ltac:(lia)) as [A2 B2]. cbn [nth] in A1, A2, B1, B2.
  destruct a1 as [|? [|? [|]]]; try discriminate. destruct a2 as [|? [|? [|]]]; try discriminate.
  destruct b1 as [|? [|? [|]]]; try discriminate. destruct b2 as [|? [|? [|]]]; try discriminate.
  destruct gL as [|? [|? [|]]]; try discriminate. destruct gV as [|? [|? [|]]]; try discriminate.
  destruct i as [|[|]]; [| |lia]; (split; [cbn [el nth]; unfold mu_r; rewrite N; reflexivity|]);
    intros k Hk; destruct k as [|[|]]; try lia; cbn [mu_rows app]; unfold el2; cbn [el nth]; unfold mu_diag; rewrite ?N;
    cbn; split; f_equal; ring.
Qed.
Definition gone : eos := {| e_R := fun _ => Fin 1; e_fgh := fun _ rho => ok (Fin 0, fin [3; 4], fins [[1; 2]; [2; 5]]); e_d2 := fun _ _ => ok []; e_dpdT := fun _ _ => ok NaN |}.
Example C44_absent_rows_met : exists r J, tx_assemble gone (Fin 1) (Fin 1) (fin [0; 1]) (fin ([0; 2] ++ [0; 1])) = ok (r, J) /\ el r 0 = Fin (3 - 3).
Proof.
  destruct (C44_absent_rows gone 1 (Fin 1) (fin [0; 1]) [0; 2] [0; 1] (Fin 0) [3; 4] [[1; 2]; [2; 5]] (Fin 0) [3; 4] [[1; 2]; [2; 5]] 0) as (r & J & E & H & _); auto.
  - intros [|[|]]; cbn; auto; lia.
  - left. cbn. lra.
  - eauto.
Qed.

(** The safeguard against negative concentrations fails when a component is absent: if the
    solver proposes a positive change for it and a negative concentration elsewhere, the
    step that is taken is infinite (or not a number) for every component with a nonzero change. *)
Definition ordered_min (minc : list fl -> fl) : Prop := forall v, In (Inf true) v -> ~ In NaN v -> minc v = Inf true.
Theorem C44_absent_step_refuted : forall minc x dx i k, ordered_min minc -> length x = length dx ->
  (i < length x)%nat -> nth i x 0 = 0 -> 0 < nth i dx 0 -> (k < length x)%nat -> nth k x 0 + nth k dx 0 < 0 ->
  (forall j, (j < length x)%nat -> nth j x 0 = 0 -> nth j dx 0 <> 0) ->
  forall j, (j < length x)%nat -> nth j dx 0 <> 0 -> isfinite (el (limit minc (fin x) (fin dx)) j) = false.
Proof.
  intros minc x dx i k Hm Ll Hi Xi Di Hk Neg NZ j Hj Dj. unfold limit.
  assert (Z : forall (f : fl -> fl -> fl) n a b, (n < length a)%nat -> length a = length b -> nth n (zip f (fin a) (fin b)) NaN = f (Fin (nth n a 0)) (Fin (nth n b 0))).
  { intros f n a. revert n. induction a as [|a0 a IH]; intros n b Hn E; [inversion Hn|]. destruct b as [|b0 b]; [discriminate|]. destruct n; [reflexivity|].
    cbn in Hn, E. cbn. apply IH; lia. }
  assert (ZL : forall (f : fl -> fl -> fl) a b, length a = length b -> length (zip f (fin a) (fin b)) = length a).
  { intros. unfold zip, fin. rewrite map_length, combine_length, !map_length. lia. }
  assert (E : existsb (fun v => flt v (Fin 0)) (zip fadd (fin x) (fin dx)) = true).
  { apply existsb_exists. exists (Fin (nth k x 0 + nth k dx 0)). split; [|cbn; destruct (Rlt_dec _ 0); [reflexivity|lra]].
    change (Fin (nth k x 0 + nth k dx 0)) with (fadd (Fin (nth k x 0)) (Fin (nth k dx 0))). rewrite <- (Z fadd) by auto. apply nth_In. rewrite ZL; auto. }
  rewrite E.
  assert (M : minc (zip ratio (fin dx) (fin x)) = Inf true).
  { apply Hm.
    - replace (Inf true) with (nth i (zip ratio (fin dx) (fin x)) NaN); [apply nth_In; rewrite ZL; lia|].
      rewrite Z by lia. rewrite Xi. unfold ratio. cbn [feq]. destruct (Req_EM_T 0 0); [|lra]. cbn [fdiv].
      destruct (Req_EM_T 0 0); [|lra]. destruct (Req_EM_T (nth i dx 0) 0); [lra|]. unfold rneg. destruct (Rlt_dec _ 0); [lra|reflexivity].
    - intros I0. apply (In_nth _ _ NaN) in I0. destruct I0 as (n & Hn & E2). rewrite ZL in Hn by auto. rewrite Z in E2 by lia.
      unfold ratio in E2. cbn [feq] in E2. destruct (Req_EM_T (nth n x 0) 0) as [X0|X0].
      + cbn in E2. destruct (Req_EM_T 0 0); [|lra]. destruct (Req_EM_T (nth n dx 0) 0); [|discriminate]. apply (NZ n); auto; lia.
      + cbn in E2. destruct (Req_EM_T (- nth n x 0) 0); [lra|discriminate]. }
  rewrite M. cbv zeta. unfold el. rewrite (nth_indep _ NaN (fmul NaN (fdiv (Inf true) (Fin 2)))) by (unfold fin; rewrite !map_length; lia).
  rewrite (map_nth (fun d => fmul d (fdiv (Inf true) (Fin 2)))).
  assert (El : nth j (fin dx) NaN = Fin (nth j dx 0)) by (apply el_fin; lia). rewrite El. cbn. destruct (Req_EM_T (nth j dx 0) 0); [contradiction|reflexivity].
Qed.
Example C44_absent_step_met : exists minc, ordered_min minc /\ isfinite (el (limit minc (fin [0; 1; 0; 1]) (fin [1; -2; 1; 1])) 1) = false.
Proof.
  exists (fun v => Inf true). split; [intros v _ _; reflexivity|].
  apply (C44_absent_step_refuted _ _ _ 0 1); cbn; try lra; try lia; [intros v _ _; reflexivity|].
  intros [|[|[|[|]]]]; cbn; lra || lia.
Qed.
Print Assumptions C44_absent_rows.
Print Assumptions C44_absent_step_refuted.
