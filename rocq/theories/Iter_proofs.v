(** Lemmas about the Newton iteration. *)
From Coq Require Import Reals ZArith String List Lia Lra Bool Psatz.
From Verif Require Import Json_model Cubic_model Derivs_model Float_model Iter_model Iter_spec.
Import ListNotations.
Open Scope R_scope.

Lemma first_stop_none : forall cs d, first_stop cs d = None -> forall c, In c cs -> c_stop c d = keep_going.
Proof. induction cs as [|a cs IH]; intros d H c [].  - subst. simpl in H. destruct (c_stop c d); discriminate || reflexivity.
  - apply IH; auto. simpl in H. destruct (c_stop a d); try discriminate. auto. Qed.
Lemma first_stop_some : forall cs d why m, first_stop cs d = Some (why, m) -> exists before c after, cs = before ++ c :: after /\
  (forall b, In b before -> c_stop b d = keep_going) /\ c_stop c d = why /\ why <> keep_going /\ m = c_desc c.
Proof.
  induction cs as [|a cs IH]; intros d why m H; [discriminate|]. simpl in H. destruct (c_stop a d) eqn:E.
  2:{ destruct (IH _ _ _ H) as [b [c [l [-> [Hb K]]]]]. exists (a :: b), c, l. split; [reflexivity|]. split; auto. intros e [<-|He]; auto. }
  all: injection H as <- <-; exists [], a, cs; split; [reflexivity|]; split; [intros ? []|]; split; [exact E|]; split; [discriminate|reflexivity].
Qed.

(** The common shape of the two loops. *)
Section Loop.
Variable step : vec -> outcome (vec * vec).
Variable cs : list condition.
Variable idx : list nat.
Fixpoint gloop (fuel : nat) (N : Z) (s : nrstate) : option (nrstate * res reason) :=
  match fuel with
  | O => Some (s, Val fatal)
  | S fuel' =>
      match step (nr_Trho s) with
      | None => None
      | Some (Err e) => Some (s, Err e)
      | Some (Val (d, r)) =>
          let s1 m := {| nr_Trho := vadd (nr_Trho s) d; nr_count := nr_count s + 1; nr_msg := m |} in
          match idx with
          | [] => Some (s1 one_step_message, Val success)
          | _ => match first_stop cs {| sd_N := N; sd_x := nr_Trho s; sd_dx := d; sd_r := r; sd_idx := idx |} with
                 | Some (why, m) => Some (s1 m, Val why)
                 | None => gloop fuel' N (s1 (nr_msg s))
                 end
          end
      end
  end.
Definition is_step x dx r := step x = Some (Val (dx, r)).
Definition shift (a : vec) (f : nat -> vec) (i : nat) : vec := match i with O => a | S j => f j end.
Lemma walk_cons : forall N s s' k x dx r d r0 m, is_step (nr_Trho s) d r0 -> 
  (forall c, In c cs -> c_stop c {| sd_N := N; sd_x := nr_Trho s; sd_dx := d; sd_r := r0; sd_idx := idx |} = keep_going) ->
  walk is_step cs N idx {| nr_Trho := vadd (nr_Trho s) d; nr_count := nr_count s + 1; nr_msg := m |} s' k x dx r ->
  walk is_step cs N idx s s' (S k) (shift (nr_Trho s) x) (shift d dx) (shift r0 r).
Proof.
  intros N s s' k x dx r d r0 m H K [W1 W2 W3 W4 W5]. cbn [nr_Trho nr_count] in *. constructor.
  - reflexivity.
  - exact W2.
  - lia.
  - intros [|i] Hi; simpl; [split; [exact H|]; exact W1|]. apply W4. lia.
  - intros [|i] c Hi Hc; simpl; [apply K; exact Hc|]. apply W5; auto. lia.
Qed.
Lemma walk_one : forall N s d r0 m, is_step (nr_Trho s) d r0 ->
  walk is_step cs N idx s {| nr_Trho := vadd (nr_Trho s) d; nr_count := nr_count s + 1; nr_msg := m |} 1 (shift (nr_Trho s) (fun _ => vadd (nr_Trho s) d)) (fun _ => d) (fun _ => r0).
Proof.
  intros. constructor; try reflexivity.
  - intros [|i] Hi; [simpl; auto|lia].
  - intros; lia.
Qed.
Lemma gloop_val : forall fuel N s s' why, idx <> [] -> gloop fuel N s = Some (s', Val why) ->
  fuel = O /\ s' = s /\ why = fatal \/
  exists k x dx r, walk is_step cs N idx s s' (S k) x dx r /\ (S k <= fuel)%nat /\
  ((exists before c after, cs = before ++ c :: after /\ (forall b, In b before -> c_stop b (asked N idx x dx r k) = keep_going) /\
      c_stop c (asked N idx x dx r k) = why /\ why <> keep_going /\ nr_msg s' = c_desc c) \/
   (S k = fuel /\ (forall b, In b cs -> c_stop b (asked N idx x dx r k) = keep_going) /\ why = fatal /\ nr_msg s' = nr_msg s)).
Proof.
  induction fuel as [|fuel IH]; intros N s s' why NI H. { simpl in H. injection H as <- <-. auto. }
  right. simpl in H. destruct (step (nr_Trho s)) as [[[d r0]|e]|] eqn:E; try discriminate. destruct idx as [|i0 idx'] eqn:EI; [contradiction|]. rewrite <- EI in *.
  destruct (first_stop cs _) as [[why0 m]|] eqn:F.
  - injection H as <- <-. apply first_stop_some in F. destruct F as [b [c [l [Hl [Hb [Hc [Hk Hm]]]]]]].
    exists O. eexists. eexists. eexists. split; [apply (walk_one N s d r0 m E)|]. split; [lia|]. left. exists b, c, l. auto.
  - assert (K := first_stop_none _ _ F). destruct (IH _ _ _ _ NI H) as [[-> [-> ->]]|[k [x [dx [r [W [L D]]]]]]].
    + exists O. eexists. eexists. eexists. split; [apply (walk_one N s d r0 (nr_msg s) E)|]. split; [lia|]. right. auto.
    + exists (S k). eexists. eexists. eexists. split; [apply (walk_cons N s s' _ x dx r d r0 (nr_msg s) E K W)|]. split; [lia|].
      destruct D as [D|[D1 D2]]; [left; exact D|right; split; [lia|exact D2]].
Qed.
Lemma gloop_err : forall fuel N s s' e, idx <> [] -> gloop fuel N s = Some (s', Err e) ->
  exists k x dx r, walk is_step cs N idx s s' k x dx r /\ (k < fuel)%nat /\ step (nr_Trho s') = Some (Err e) /\ nr_msg s' = nr_msg s /\
  forall i b, (i < k)%nat -> In b cs -> c_stop b (asked N idx x dx r i) = keep_going.
Proof.
  induction fuel as [|fuel IH]; intros N s s' e NI H; [discriminate|]. simpl in H.
  destruct (step (nr_Trho s)) as [[[d r0]|e0]|] eqn:E; try discriminate.
  - destruct idx as [|i0 idx'] eqn:EI; [contradiction|]. rewrite <- EI in *. destruct (first_stop cs _) as [[why0 m]|] eqn:F; [discriminate|].
    assert (K := first_stop_none _ _ F). destruct (IH _ _ _ _ NI H) as [k [x [dx [r [W [L [D [M G]]]]]]]].
    exists (S k). eexists. eexists. eexists. split; [apply (walk_cons N s s' _ x dx r d r0 (nr_msg s) E K W)|]. split; [lia|]. split; [auto|]. split; [exact M|].
    intros [|i] b Hi Hb; [apply K; auto|]. apply (G i b); auto. lia.
  - injection H as <- <-. exists O, (fun _ => nr_Trho s), (fun _ => nr_Trho s), (fun _ => nr_Trho s). split.
    { constructor; try reflexivity; intros; try lia. } split; [lia|]. split; [exact E|]. split; [reflexivity|]. intros; lia.
Qed.
Lemma gloop_total : forall fuel N s, (forall x, exists d r, step x = Some (Val (d, r))) -> exists s' why, gloop fuel N s = Some (s', Val why).
Proof.
  induction fuel as [|fuel IH]; intros N s H; simpl; [eauto|]. destruct (H (nr_Trho s)) as [d [r ->]].
  destruct idx as [|i l] eqn:EI; [eauto|]. destruct (first_stop cs _) as [[why m]|]; [eauto|]. apply IH; auto.
Qed.
End Loop.

Definition step_of (calc : vec -> outcome matrices) lu vals rel x : outcome (vec * vec) :=
  match calc x with None => None | Some (Err e) => Some (Err e) | Some (Val im) =>
    let r := scale_r vals rel (vsub (im_v im) vals) in Some (Val (lu (scale_J vals rel (im_J im)) (vopp r), r)) end.
Definition step_log (calc : vec -> outcome matrices) lu vals rel (x : vec) : outcome (vec * vec) :=
  match calc x with None => None | Some (Err e) => Some (Err e) | Some (Val im) =>
    let r := scale_r vals rel (vsub (im_v im) vals) in
    let s := lu (scale_J vals rel (scale_col1 (im_J im) (snd x))) (vopp r) in
    Some (Val ((fst s, fmul (snd x) (fsub (fexp (snd s)) (Fin 1))), r)) end.
Lemma steps_gloop : forall calc lu vals rel cs idx fuel N s, steps calc lu vals rel cs idx fuel N s = gloop (step_of calc lu vals rel) cs idx fuel N s.
Proof.
  intros calc lu vals rel cs idx. induction fuel; intros N s; simpl; [reflexivity|]. unfold step_of at 1. destruct (calc (nr_Trho s)) as [[im|e]|]; try reflexivity.
  destruct idx as [|i l] eqn:E; [reflexivity|]. rewrite <- E in *. destruct (first_stop cs _) as [[w m]|]; [reflexivity|]. apply IHfuel.
Qed.
Lemma log_gloop : forall calc lu vals rel cs idx fuel N s, steps_logrho calc lu vals rel cs idx fuel N s = gloop (step_log calc lu vals rel) cs idx fuel N s.
Proof.
  intros calc lu vals rel cs idx. induction fuel; intros N s; simpl; [reflexivity|]. unfold step_log at 1. destruct (calc (nr_Trho s)) as [[im|e]|]; try reflexivity.
  destruct idx as [|i l] eqn:E; [reflexivity|]. rewrite <- E in *. destruct (first_stop cs _) as [[w m]|]; [reflexivity|]. apply IHfuel.
Qed.
Lemma step_newton : forall calc lu vals rel x dx r, is_step (step_of calc lu vals rel) x dx r <-> newton calc lu vals rel x dx r.
Proof.
  intros calc lu vals rel x dx r. unfold is_step, step_of, newton. split.
  - destruct (calc x) as [[[[v0 v1] [[J00 J01] [J10 J11]]]|e]|]; intros H; try discriminate. injection H as <- <-.
    exists v0, v1, J00, J01, J10, J11. split; [reflexivity|]. unfold scale_r, scale_J, relative, vdivs, vsub, vopp. cbn [im_v im_J fst snd].
    destruct rel as [[|] [|]]; cbn [fst snd]; split; reflexivity.
  - intros [v0 [v1 [J00 [J01 [J10 [J11 [-> [-> ->]]]]]]]]. unfold scale_r, scale_J, relative, vdivs, vsub, vopp. cbn [im_v im_J fst snd].
    destruct rel as [[|] [|]]; reflexivity.
Qed.
Lemma step_newton_log : forall calc lu vals rel x dx r, is_step (step_log calc lu vals rel) x dx r <-> newton_log calc lu vals rel x dx r.
Proof.
  intros calc lu vals rel x dx r. unfold is_step, step_log, newton_log. split.
  - destruct (calc x) as [[[[v0 v1] [[J00 J01] [J10 J11]]]|e]|]; intros H; try discriminate. injection H as <- <-.
    exists v0, v1, J00, J01, J10, J11. eexists. eexists. split; [reflexivity|]. split; [|split; [|reflexivity]];
    unfold scale_r, scale_J, scale_col1, relative, vdivs, vsub, vopp; cbn [im_v im_J fst snd];
    destruct rel as [[|] [|]]; cbn [fst snd]; try reflexivity; rewrite <- surjective_pairing; reflexivity.
  - intros [v0 [v1 [J00 [J01 [J10 [J11 [dT [dl [-> [-> [E ->]]]]]]]]]]]. unfold scale_r, scale_J, scale_col1, relative, vdivs, vsub, vopp in *. cbn [im_v im_J fst snd] in *.
    destruct rel as [[|] [|]]; cbn [fst snd] in *; (match goal with |- context [lu ?a ?b] => replace (lu a b) with (dT, dl) by exact E end); reflexivity.
Qed.
Lemma walk_ext : forall (P Q : vec -> vec -> vec -> Prop) cs N idx s s' k x dx r, (forall a b c, P a b c -> Q a b c) ->
  walk P cs N idx s s' k x dx r -> walk Q cs N idx s s' k x dx r.
Proof. intros P Q cs N idx s s' k x dx r H [W1 W2 W3 W4 W5]. constructor; auto. intros i Hi. destruct (W4 i Hi). auto. Qed.
