(** Proofs about superancillary equations: Clenshaw sums, bisection, signs of polynomials with integer
    coefficients. *)
From Coq Require Import Reals ZArith List Bool Lra Lia.
From Coquelicot Require Import Coquelicot.
From Verif Require Import Poly_spec Json_model Cubic_model Terms_model Ideal_model Assoc_model SuperAnc_tables SuperAnc_model SuperAnc_spec.
Import ListNotations.
Local Open Scope R_scope.

(** * Clenshaw *)
Fixpoint upto (c : list R) (x : R) (k : nat) : R := match k with O => nth 0 c 0 * chebT 0 x | S k' => upto c x k' + nth k c 0 * chebT k x end.
Lemma chebT_SS : forall n x, chebT (S (S n)) x = 2 * x * chebT (S n) x - chebT n x.
Proof. reflexivity. Qed.
Lemma y_loop_inv : forall c s k u1 u2 a b, y_loop c s k u1 u2 = (a, b) -> nth 0 c 0 + s * a - b = upto c s k + u1 * chebT (S k) s - u2 * chebT k s.
Proof.
  intros c s k. induction k as [|k IH]; intros u1 u2 a b E.
  - cbn [y_loop] in E. injection E as <- <-. cbn [upto chebT]. ring.
  - cbn [y_loop] in E. apply IH in E. rewrite E. cbn [upto]. rewrite (chebT_SS k). ring.
Qed.
Lemma upto_ext : forall c d x k, (forall j, (j <= k)%nat -> nth j c 0 = nth j d 0) -> upto c x k = upto d x k.
Proof. intros c d x k. induction k as [|k IH]; intros H; cbn [upto]; [now rewrite H by lia|]. rewrite IH by (intros; apply H; lia). now rewrite (H (S k)) by lia. Qed.
Lemma tail_app : forall k c d x, cheb_tail k (c ++ d) x = cheb_tail k c x + cheb_tail (k + length c) d x.
Proof. intros k c. revert k. induction c as [|a c IH]; intros k d x; cbn [app cheb_tail length]; [rewrite Nat.add_0_r; ring|]. rewrite IH. replace (S k + length c)%nat with (k + S (length c))%nat by lia. ring. Qed.
Lemma upto_tail : forall c x N, length c = S N -> upto c x N = cheb_tail 0 c x.
Proof.
  intros c. induction c as [|a c IH] using rev_ind; intros x N L; [discriminate|]. rewrite app_length in L. cbn [length] in L. rewrite tail_app. assert (LC : length c = N) by lia. rewrite LC. cbn [cheb_tail]. rewrite Nat.add_0_l. destruct N as [|N].
  - destruct c as [|? ?]; [|cbn in *; lia]. cbn. ring.
  - cbn [upto]. rewrite (upto_ext (c ++ [a]) c) by (intros j Hj; apply app_nth1; lia). rewrite (IH x N) by lia. rewrite app_nth2 by lia. replace (S N - length c)%nat with 0%nat by lia. cbn [nth]. ring.
Qed.
Lemma cheb_y_eq : forall e x, proper e -> cheb_y e x = Some (expansion e x).
Proof.
  intros e x [L H]. unfold cheb_y, expansion. destruct (length (e_coeff e)) as [|[|N]] eqn:LE; [lia|lia|]. unfold cdiv. destruct (Req_EM_T _ 0); [lra|]. cbn [opt_bind]. set (s := _ / _). cbn [Nat.sub]. rewrite ?Nat.sub_0_r.
  destruct (y_loop (e_coeff e) s N (nth (S N) (e_coeff e) 0) 0) as [u1 u2] eqn:E. apply y_loop_inv in E. rewrite E. rewrite <- (upto_tail (e_coeff e) s (S N)) by assumption. cbn [upto]. f_equal. ring.
Qed.

(** * Bisection *)
Lemma joined_nth : forall es i, joined es -> (i < length es)%nat -> proper (nth i es no_cheb) /\ ((S i < length es)%nat -> e_max (nth i es no_cheb) = e_min (nth (S i) es no_cheb)).
Proof.
  intros es. induction es as [|e es IH]; intros i J Hi; [contradiction|]. destruct es as [|e' es].
  - cbn in Hi. replace i with 0%nat by lia. cbn in *. split; [exact J|lia].
  - destruct J as (P & M & J). destruct i as [|i]; [cbn [nth]; auto|]. cbn [length] in Hi. destruct (IH i J ltac:(cbn [length]; lia)) as [P' M']. cbn [nth] in *. split; [exact P'|]. intros H. apply M'. cbn [length] in *. lia.
Qed.
Lemma last_nth : forall es : list cheb, last es no_cheb = nth (length es - 1) es no_cheb.
Proof. intros es. induction es as [|e es IH]; [reflexivity|]. destruct es as [|e' es]; [reflexivity|]. cbn [last]. change (match es with [] => e' | _ :: _ => last es no_cheb end) with (last (e' :: es) no_cheb). rewrite IH. cbn [length]. replace (S (S (length es)) - 1)%nat with (S (S (length es) - 1))%nat by lia. reflexivity. Qed.
Lemma bisect_inv : forall es x fuel iL iR jL jR, (iR - iL <= fuel)%nat -> (iL <= iR)%nat -> e_min (nth iL es no_cheb) <= x -> (x < e_min (nth iR es no_cheb) \/ iR = (length es - 1)%nat) -> (iR < length es)%nat ->
  bisect es x fuel iL iR = (jL, jR) -> (jL <= jR <= S jL)%nat /\ (jR < length es)%nat /\ e_min (nth jL es no_cheb) <= x /\ (x < e_min (nth jR es no_cheb) \/ jR = (length es - 1)%nat).
Proof.
  intros es x fuel. induction fuel as [|f IH]; intros iL iR jL jR F LR ML MR LT E; cbn [bisect] in E.
  - injection E as <- <-. repeat split; try assumption; lia.
  - destruct (Nat.ltb_spec 1 (iR - iL)) as [W|W]; [|injection E as <- <-; repeat split; try assumption; lia].
    cbv zeta in E. assert (Q : (iL < Nat.div (iL + iR) 2 < iR)%nat). { pose proof (Nat.div_mod (iL + iR) 2 ltac:(lia)) as D. pose proof (Nat.mod_upper_bound (iL + iR) 2 ltac:(lia)). lia. }
    destruct (Rle_dec _ x) as [H|H]; apply IH in E; try assumption; try lia. left. lra.
Qed.
Lemma get_index_ok : forall es x, joined es -> first_T es <= x <= last_T es -> (get_index es x < length es)%nat /\ inside (nth (get_index es x) es no_cheb) x.
Proof.
  intros es x J [H1 H2]. assert (N : (0 < length es)%nat) by (destruct es; [contradiction|cbn; lia]). unfold get_index. destruct (bisect es x (length es) 0 (length es - 1)) as [jL jR] eqn:E.
  apply bisect_inv in E; try lia; [|exact H1]. destruct E as ((A & B) & C & ML & MR). unfold last_T in H2. rewrite last_nth in H2. destruct (Rlt_dec x _) as [Q|Q].
  - split; [lia|]. split; lra.
  - split; [lia|]. assert (D : jR = jL \/ jR = S jL) by lia. destruct D as [-> | ->].
    + split; [assumption|]. destruct MR as [|Z]; [lra|]. rewrite <- Z in H2. exact H2.
    + destruct (joined_nth es jL J ltac:(lia)) as [_ M]. specialize (M ltac:(lia)). split; [rewrite <- M; lra|]. destruct MR as [MR|Z]; [rewrite <- M in MR; contradiction|]. rewrite <- Z in H2. exact H2.
Qed.
Lemma superanc_value : forall es x, joined es -> first_T es <= x <= last_T es -> exists i, (i < length es)%nat /\ inside (nth i es no_cheb) x /\ superanc_y es x = ok (expansion (nth i es no_cheb) x).
Proof.
  intros es x J H. destruct (get_index_ok es x J H) as [L I]. exists (get_index es x). split; [assumption|]. split; [assumption|]. unfold superanc_y. destruct es as [|e es]; [contradiction|]. destruct H as [H1 H2]. unfold first_T in H1. cbn [nth] in H1.
  destruct (Rlt_dec x (e_min e)); [lra|]. destruct (Rlt_dec _ x) as [H3|_]; [unfold last_T in H2; lra|]. destruct (joined_nth _ _ J L) as [P _]. now rewrite cheb_y_eq.
Qed.

(** * Polynomials with integer coefficients *)
Definition zpoly := list Z.
Fixpoint ev (p : zpoly) (u : R) : R := match p with [] => 0 | a :: p' => IZR a + u * ev p' u end.
Fixpoint zadd (p q : zpoly) : zpoly := match p, q with [], _ => q | _, [] => p | a :: p', b :: q' => (a + b)%Z :: zadd p' q' end.
Definition zscale (k : Z) (p : zpoly) : zpoly := map (Z.mul k) p.
Lemma ev_add : forall p q u, ev (zadd p q) u = ev p u + ev q u.
Proof. induction p as [|a p IH]; intros [|b q] u; cbn [zadd ev]; try ring. rewrite IH, plus_IZR. ring. Qed.
Lemma ev_scale : forall k p u, ev (zscale k p) u = IZR k * ev p u.
Proof. intros k p u. unfold zscale. induction p as [|a p IH]; cbn [map ev]; [ring|]. rewrite IH, mult_IZR. ring. Qed.
(** Chebyshev series in the variable 2u - 1 *)
Definition next (t t' : zpoly) : zpoly := zadd (zadd (zscale (-2) t') (0%Z :: zscale 4 t')) (zscale (-1) t).
Fixpoint series (c : list Z) (t t' : zpoly) : zpoly := match c with [] => [] | a :: c' => zadd (zscale a t) (series c' t' (next t t')) end.
Lemma ev_next : forall t t' u, ev (next t t') u = 2 * (2 * u - 1) * ev t' u - ev t u.
Proof. intros. unfold next. rewrite !ev_add. cbn [ev]. rewrite !ev_scale. ring. Qed.
Lemma ev_series : forall c k t t' u, ev t u = chebT k (2 * u - 1) -> ev t' u = chebT (S k) (2 * u - 1) -> ev (series c t t') u = cheb_tail k (map IZR c) (2 * u - 1).
Proof.
  induction c as [|a c IH]; intros k t t' u H H'; [reflexivity|]. cbn [series map cheb_tail]. rewrite ev_add, ev_scale, H. f_equal. apply IH; [assumption|]. rewrite ev_next, H, H'. now rewrite chebT_SS.
Qed.
Definition power (c : list Z) : zpoly := series c [1%Z] [(-1)%Z; 2%Z].
Lemma ev_power : forall c u, ev (power c) u = cheb_tail 0 (map IZR c) (2 * u - 1).
Proof. intros. apply ev_series; cbn; ring. Qed.
(** p(1 + v) *)
Fixpoint shift (p : zpoly) : zpoly := match p with [] => [] | a :: p' => let q := shift p' in zadd [a] (zadd q (0%Z :: q)) end.
Lemma ev_shift : forall p v, ev (shift p) v = ev p (1 + v).
Proof. induction p as [|a p IH]; intros v; [reflexivity|]. cbn [shift]. cbv zeta. rewrite !ev_add. cbn [ev]. rewrite IH. ring. Qed.
(** the reversed polynomial *)
Lemma ev_app : forall p q u, ev (p ++ q) u = ev p u + u ^ length p * ev q u.
Proof. induction p as [|a p IH]; intros q u; cbn [app ev length pow]; [ring|]. rewrite IH. ring. Qed.
Lemma ev_rev : forall p u, u <> 0 -> u ^ (length p) * ev (rev p) (/ u) = u * ev p u.
Proof.
  induction p as [|a p IH]; intros u H; [cbn; ring|]. cbn [rev]. rewrite ev_app, rev_length. cbn [length ev pow]. rewrite Rmult_plus_distr_l. replace (u * u ^ length p * ev (rev p) (/ u)) with (u * (u ^ length p * ev (rev p) (/ u))) by ring. rewrite IH by assumption.
  replace (u * u ^ length p * ((/ u) ^ length p * (IZR a + / u * 0))) with (u * IZR a * (u ^ length p * (/ u) ^ length p)) by ring. rewrite <- Rpow_mult_distr, Rinv_r, pow1 by assumption. ring.
Qed.
Lemma ev_nonneg : forall p v, (forall a, In a p -> (0 <= a)%Z) -> 0 <= v -> 0 <= ev p v.
Proof. induction p as [|a p IH]; intros v H V; cbn [ev]; [lra|]. assert (0 <= IZR a) by (apply IZR_le, H; now left). assert (0 <= ev p v) by (apply IH; [intros; apply H; now right|assumption]). pose proof (Rmult_le_pos _ _ V H1). lra. Qed.
(** A test that a polynomial is positive between 0 and 1 *)
Definition head (p : zpoly) : Z := match p with [] => 0%Z | a :: _ => a end.
Definition positive01 (p : zpoly) : bool := let q := shift (rev p) in ((0 <? head p) && (0 <? head q) && forallb (fun a => 0 <=? a) q)%Z.
Lemma positive01_ok : forall p u, positive01 p = true -> 0 <= u <= 1 -> 0 < ev p u.
Proof.
  intros p u H [U0 U1]. unfold positive01 in H. cbv zeta in H. apply andb_true_iff in H. destruct H as [H F]. apply andb_true_iff in H. destruct H as [H1 H2]. apply Z.ltb_lt in H1, H2. rewrite forallb_forall in F.
  destruct (Req_EM_T u 0) as [->|NZ]. { destruct p as [|a p]; cbn in *; [lia|]. apply IZR_lt in H1. rewrite Rmult_0_l. lra. }
  assert (U : 0 < u) by lra. assert (I : 1 <= / u) by (rewrite <- Rinv_1; apply Rinv_le_contravar; lra). assert (Q : 0 < ev (rev p) (/ u)).
  { replace (/ u) with (1 + (/ u - 1)) by ring. rewrite <- ev_shift. destruct (shift (rev p)) as [|a q]; cbn [head] in H2; [lia|]. cbn [ev]. apply IZR_lt in H2. assert (0 <= ev q (/ u - 1)) by (apply ev_nonneg; [intros b Hb; apply Z.leb_le, F; now right|lra]). assert (0 <= (/ u - 1) * ev q (/ u - 1)) by (apply Rmult_le_pos; lra). lra. }
  assert (0 < u ^ length p) by now apply pow_lt. assert (W : 0 < u * ev p u) by (rewrite <- ev_rev by assumption; now apply Rmult_lt_0_compat). apply Rmult_lt_reg_l with u; lra.
Qed.
(** Derivative *)
Fixpoint zderiv (p : zpoly) : zpoly := match p with [] => [] | _ :: p' => zadd p' (0%Z :: zderiv p') end.
Lemma ev_deriv : forall p u, is_derive (ev p) u (ev (zderiv p) u).
Proof.
  induction p as [|a p IH]; intros u; cbn [zderiv].
  - apply (is_derive_const (K := R_AbsRing) (V := R_NormedModule)).
  - rewrite ev_add. cbn [ev]. replace (ev p u + (0 + u * ev (zderiv p) u)) with (0 + (1 * ev p u + u * ev (zderiv p) u)) by ring.
    apply (is_derive_plus (K := R_AbsRing) (V := R_NormedModule) (fun _ => IZR a) (fun u => u * ev p u)); [apply (is_derive_const (K := R_AbsRing) (V := R_NormedModule))|].
    exact (is_derive_mult (fun u => u) (ev p) u 1 (ev (zderiv p) u) (is_derive_id (K := R_AbsRing) u) (IH u) Rmult_comm).
Qed.
Lemma increasing01_ok : forall p u v, positive01 (zderiv p) = true -> 0 <= u -> u < v -> v <= 1 -> ev p u < ev p v.
Proof.
  intros p u v H U UV V. destruct (MVT_gen (ev p) u v (ev (zderiv p))) as (w & W & E).
  - intros w _. apply ev_deriv.
  - intros w _. apply derivable_continuous_pt. exists (ev (zderiv p) w). apply is_derive_Reals, ev_deriv.
  - rewrite Rmin_left, Rmax_right in W by lra. pose proof (positive01_ok _ w H ltac:(lra)) as P. assert (0 < ev (zderiv p) w * (v - u)) by (apply Rmult_lt_0_compat; lra). lra.
Qed.

(** * Scaled tables *)
Definition scale_exp : Z := 46.
Definition fits (d : Z * Z) : bool := (0 <=? snd d + scale_exp)%Z.
Definition scaled_dec (d : Z * Z) : Z := (fst d * 10 ^ (snd d + scale_exp))%Z.
Definition unit : R := powerRZ 10 scale_exp.
Lemma unit_pos : 0 < unit.
Proof. unfold unit. apply powerRZ_lt. lra. Qed.
Lemma scaled_dec_ok : forall d, fits d = true -> IZR (scaled_dec d) = decimal d * unit.
Proof.
  intros [m e] H. unfold fits, scaled_dec, decimal, unit in *. cbn [fst snd] in *. apply Z.leb_le in H. rewrite mult_IZR, Rmult_assoc. f_equal. rewrite <- powerRZ_add by lra. rewrite <- (Z2Nat.id (e + scale_exp)) by assumption. rewrite <- pow_IZR, pow_powerRZ. reflexivity.
Qed.
Definition piece := (list (Z * Z) * (Z * Z) * (Z * Z))%type.
Definition cheb_of (r : piece) : cheb := {| e_coeff := map decimal (fst (fst r)); e_min := decimal (snd (fst r)); e_max := decimal (snd r) |}.
Definition coeffs (r : piece) : list Z := map scaled_dec (fst (fst r)).
Definition good (r : piece) : bool := (forallb fits (fst (fst r)) && fits (snd (fst r)) && fits (snd r) && Nat.leb 2 (length (fst (fst r))) && (scaled_dec (snd (fst r)) <? scaled_dec (snd r))%Z)%bool.
Lemma tail_scale : forall c k x a, cheb_tail k (map (fun v => v * a) c) x = cheb_tail k c x * a.
Proof. induction c as [|b c IH]; intros k x a; cbn [map cheb_tail]; [ring|]. rewrite IH. ring. Qed.
Lemma good_proper : forall r, good r = true -> proper (cheb_of r).
Proof.
  intros r H. unfold good in H. repeat (apply andb_true_iff in H; destruct H as [H ?]). split; cbn [cheb_of e_coeff e_min e_max]; [rewrite map_length; now apply Nat.leb_le|]. match goal with Q : (_ <? _)%Z = true |- _ => apply Z.ltb_lt in Q; apply IZR_lt in Q; rewrite !scaled_dec_ok in Q by assumption end. apply Rmult_lt_reg_r with unit; [apply unit_pos|assumption].
Qed.
Definition place (e : cheb) (x : R) : R := (x - e_min e) / (e_max e - e_min e).
Lemma place_01 : forall e x, proper e -> inside e x -> 0 <= place e x <= 1.
Proof.
  intros e x [_ H] [A B]. unfold place. split; [apply Rmult_le_pos; [lra|left; apply Rinv_0_lt_compat; lra]|]. apply Rmult_le_reg_r with (e_max e - e_min e); [lra|]. unfold Rdiv. rewrite Rmult_assoc, Rinv_l by lra. lra.
Qed.
Lemma place_lt : forall e x y, proper e -> x < y -> place e x < place e y.
Proof. intros e x y [_ H] L. unfold place, Rdiv. apply Rmult_lt_compat_r; [apply Rinv_0_lt_compat; lra|lra]. Qed.
Lemma expansion_ev : forall r x, good r = true -> expansion (cheb_of r) x * unit = ev (power (coeffs r)) (place (cheb_of r) x).
Proof.
  intros r x G. pose proof (good_proper r G) as [_ P]. rewrite ev_power. unfold expansion, coeffs. rewrite map_map. unfold good in G. repeat (apply andb_true_iff in G; destruct G as [G ?]). rewrite forallb_forall in G.
  rewrite (map_ext_in (fun d => IZR (scaled_dec d)) (fun d => decimal d * unit)) by (intros d Hd; now apply scaled_dec_ok, G). rewrite <- (map_map decimal (fun v => v * unit)). rewrite tail_scale. cbn [cheb_of e_coeff e_min e_max] in *. f_equal. f_equal. unfold place. cbn [cheb_of e_min e_max]. field. lra.
Qed.
(** A sign that holds for all points of a piece: the piece, times [sg], minus the decimal [k], is
    positive *)
Definition above (sg : Z) (k : Z * Z) (r : piece) : bool := positive01 (zadd (zscale sg (power (coeffs r))) [(- scaled_dec k)%Z]).
Lemma above_ok : forall sg k r x, good r = true -> fits k = true -> above sg k r = true -> inside (cheb_of r) x -> decimal k < IZR sg * expansion (cheb_of r) x.
Proof.
  intros sg k r x G F A I. pose proof (positive01_ok _ _ A (place_01 _ x (good_proper r G) I)) as P. rewrite ev_add, ev_scale, <- expansion_ev in P by assumption. cbn [ev] in P. rewrite opp_IZR, scaled_dec_ok, Rmult_0_r in P by assumption. apply Rmult_lt_reg_r with unit; [apply unit_pos|]. lra.
Qed.
(** The same from the sum of the magnitudes of the coefficients *)
Definition magnitudes (c : list Z) : Z := fold_right (fun a s => (Z.abs a + s)%Z) 0%Z c.
Definition above_sum (sg : Z) (k : Z * Z) (r : piece) : bool := (scaled_dec k <? sg * head (coeffs r) - Z.abs sg * magnitudes (tl (coeffs r)))%Z.
Lemma chebT_bound : forall n s, -1 <= s <= 1 -> Rabs (chebT n s) <= 1.
Proof. intros n s H. rewrite <- (cos_acos s H), chebT_cos. pose proof (COS_bound (INR n * acos s)). apply Rabs_le. lra. Qed.
Lemma tail_bound : forall c k s, -1 <= s <= 1 -> Rabs (cheb_tail k (map IZR c) s) <= IZR (magnitudes c).
Proof.
  induction c as [|a c IH]; intros k s H; cbn [map cheb_tail magnitudes fold_right]; [rewrite Rabs_R0; lra|]. rewrite plus_IZR. eapply Rle_trans; [apply Rabs_triang|]. apply Rplus_le_compat; [|now apply IH]. rewrite Rabs_mult, abs_IZR. pose proof (chebT_bound k s H). pose proof (Rabs_pos (IZR a)). pose proof (Rmult_le_compat_l _ _ _ H1 H0). lra.
Qed.
Lemma above_sum_ok : forall sg k r x, good r = true -> fits k = true -> above_sum sg k r = true -> inside (cheb_of r) x -> decimal k < IZR sg * expansion (cheb_of r) x.
Proof.
  intros sg k r x G F A I. pose proof (place_01 _ x (good_proper r G) I) as P. apply Rmult_lt_reg_r with unit; [apply unit_pos|]. rewrite <- scaled_dec_ok by assumption. rewrite Rmult_assoc, expansion_ev by assumption. rewrite ev_power. set (s := 2 * place (cheb_of r) x - 1). assert (S : -1 <= s <= 1) by (unfold s; lra). clearbody s.
  unfold above_sum in A. apply Z.ltb_lt, IZR_lt in A. rewrite minus_IZR, !mult_IZR, abs_IZR in A. eapply Rlt_le_trans; [exact A|]. destruct (coeffs r) as [|a c]; cbn [map cheb_tail head tl].
  - cbn. rewrite Rmult_0_r. lra.
  - pose proof (tail_bound c 1 s S) as B. cbn [chebT]. rewrite Rmult_1_r, Rmult_plus_distr_l. assert (Rabs (IZR sg * cheb_tail 1 (map IZR c) s) <= Rabs (IZR sg) * IZR (magnitudes c)) by (rewrite Rabs_mult; apply Rmult_le_compat_l; [apply Rabs_pos|assumption]). pose proof (Rle_abs (- (IZR sg * cheb_tail 1 (map IZR c) s))) as Q. rewrite Rabs_Ropp in Q. lra.
Qed.
Definition surely_above (sg : Z) (k : Z * Z) (r : piece) : bool := (above_sum sg k r || above sg k r)%bool.
Lemma surely_above_ok : forall sg k r x, good r = true -> fits k = true -> surely_above sg k r = true -> inside (cheb_of r) x -> decimal k < IZR sg * expansion (cheb_of r) x.
Proof. intros sg k r x G F A I. apply orb_true_iff in A. destruct A; [now apply above_sum_ok|now apply above_ok]. Qed.
(** The same for growth: the term of first order outweighs the others, because T_k changes at most k^2
    times as much as its argument *)
Lemma sin_mult : forall n x, Rabs (sin (INR n * x)) <= INR n * Rabs (sin x).
Proof.
  induction n as [|n IH]; intros x; [cbn [INR]; rewrite Rmult_0_l, sin_0, Rabs_R0; lra|]. rewrite S_INR. replace ((INR n + 1) * x) with (INR n * x + x) by ring. rewrite sin_plus. eapply Rle_trans; [apply Rabs_triang|]. rewrite !Rabs_mult.
  pose proof (IH x). assert (Rabs (cos x) <= 1) by (pose proof (COS_bound x); apply Rabs_le; lra). assert (Rabs (cos (INR n * x)) <= 1) by (pose proof (COS_bound (INR n * x)); apply Rabs_le; lra). pose proof (Rabs_pos (sin (INR n * x))). pose proof (Rabs_pos (sin x)). pose proof (Rabs_pos (cos x)). pose proof (Rabs_pos (cos (INR n * x))). nra.
Qed.
Lemma cos_diff : forall a b, cos a - cos b = - 2 * sin ((a + b) / 2) * sin ((a - b) / 2).
Proof. intros a b. set (p := (a + b) / 2). set (q := (a - b) / 2). assert (A : a = p + q) by (unfold p, q; field). assert (B : b = p - q) by (unfold p, q; field). clearbody p q. rewrite A, B, cos_plus, cos_minus. ring. Qed.
Lemma chebT_change : forall n s t, -1 <= s <= 1 -> -1 <= t <= 1 -> Rabs (chebT n s - chebT n t) <= INR n * INR n * Rabs (s - t).
Proof.
  intros n s t Hs Ht. rewrite <- (cos_acos s Hs), <- (cos_acos t Ht), !chebT_cos. set (a := acos s). set (b := acos t). rewrite !cos_diff. replace ((INR n * a + INR n * b) / 2) with (INR n * ((a + b) / 2)) by field. replace ((INR n * a - INR n * b) / 2) with (INR n * ((a - b) / 2)) by field. rewrite !Rabs_mult.
  pose proof (sin_mult n ((a + b) / 2)) as A. pose proof (sin_mult n ((a - b) / 2)) as B. pose proof (Rmult_le_compat _ _ _ _ (Rabs_pos _) (Rabs_pos _) A B) as C. pose proof (Rabs_pos (- 2)) as D. pose proof (Rmult_le_compat_l _ _ _ D C). lra.
Qed.
Fixpoint bends (k : Z) (c : list Z) : Z := match c with [] => 0%Z | a :: c' => (k * k * Z.abs a + bends (k + 1) c')%Z end.
Lemma tail_change : forall c k s t, -1 <= s <= 1 -> -1 <= t <= 1 -> Rabs (cheb_tail k (map IZR c) s - cheb_tail k (map IZR c) t) <= IZR (bends (Z.of_nat k) c) * Rabs (s - t).
Proof.
  induction c as [|a c IH]; intros k s t Hs Ht; cbn [map cheb_tail bends]; [rewrite Rminus_0_r, Rabs_R0; lra|]. rewrite plus_IZR, !mult_IZR, abs_IZR, <- INR_IZR_INZ. replace (_ + _ - (_ + _)) with (IZR a * (chebT k s - chebT k t) + (cheb_tail (S k) (map IZR c) s - cheb_tail (S k) (map IZR c) t)) by ring. eapply Rle_trans; [apply Rabs_triang|]. rewrite Rabs_mult.
  specialize (IH (S k) s t Hs Ht). replace (Z.of_nat (S k)) with (Z.of_nat k + 1)%Z in IH by lia. pose proof (Rmult_le_compat_l _ _ _ (Rabs_pos (IZR a)) (chebT_change k s t Hs Ht)). lra.
Qed.
Definition steep (sg : Z) (r : piece) : bool := match coeffs r with _ :: b :: c => (Z.abs sg * bends 2 c <? sg * b)%Z | _ => false end.
Lemma steep_ok : forall sg r x y, good r = true -> steep sg r = true -> inside (cheb_of r) x -> inside (cheb_of r) y -> x < y -> IZR sg * expansion (cheb_of r) x < IZR sg * expansion (cheb_of r) y.
Proof.
  intros sg r x y G A Ix Iy L. pose proof (good_proper r G) as P. pose proof (place_01 _ x P Ix). pose proof (place_01 _ y P Iy). pose proof (place_lt _ x y P L) as PL. apply Rmult_lt_reg_r with unit; [apply unit_pos|]. rewrite !Rmult_assoc, !expansion_ev, !ev_power by assumption. set (s := 2 * place (cheb_of r) x - 1). set (t := 2 * place (cheb_of r) y - 1). assert (Hs : -1 <= s <= 1) by (unfold s; lra). assert (Ht : -1 <= t <= 1) by (unfold t; lra). assert (ST : s < t) by (unfold s, t; lra). clearbody s t. clear -A Hs Ht ST.
  unfold steep in A. destruct (coeffs r) as [|a [|b c]]; try discriminate. apply Z.ltb_lt, IZR_lt in A. rewrite !mult_IZR, abs_IZR in A. cbn [map cheb_tail chebT]. pose proof (tail_change c 2 s t Hs Ht) as B. change (Z.of_nat 2) with 2%Z in B. rewrite (Rabs_left (s - t)) in B by lra.
  set (f := cheb_tail 2 (map IZR c)) in *. apply Rminus_lt. replace (_ - _) with (- (IZR sg * IZR b) * (t - s) + IZR sg * (f s - f t)) by ring. pose proof (Rmult_le_compat_l _ _ _ (Rabs_pos (IZR sg)) B) as C. rewrite <- Rabs_mult in C. pose proof (Rle_abs (IZR sg * (f s - f t))) as D. assert (0 < (IZR sg * IZR b - Rabs (IZR sg) * IZR (bends 2 c)) * (t - s)) by (apply Rmult_lt_0_compat; lra). lra.
Qed.
Definition slopes (sg : Z) (r : piece) : bool := positive01 (zderiv (zscale sg (power (coeffs r)))).
Lemma slopes_ok : forall sg r x y, good r = true -> slopes sg r = true -> inside (cheb_of r) x -> inside (cheb_of r) y -> x < y -> IZR sg * expansion (cheb_of r) x < IZR sg * expansion (cheb_of r) y.
Proof.
  intros sg r x y G A Ix Iy L. pose proof (good_proper r G) as P. pose proof (place_01 _ x P Ix). pose proof (place_01 _ y P Iy). pose proof (place_lt _ x y P L) as PL.
  pose proof (increasing01_ok _ (place (cheb_of r) x) (place (cheb_of r) y) A ltac:(lra) PL ltac:(lra)) as Q. rewrite !ev_scale, <- !expansion_ev in Q by assumption. apply Rmult_lt_reg_r with unit; [apply unit_pos|]. lra.
Qed.
Definition rises (sg : Z) (r : piece) : bool := (steep sg r || slopes sg r)%bool.
Lemma rises_ok : forall sg r x y, good r = true -> rises sg r = true -> inside (cheb_of r) x -> inside (cheb_of r) y -> x < y -> IZR sg * expansion (cheb_of r) x < IZR sg * expansion (cheb_of r) y.
Proof. intros sg r x y G A. apply orb_true_iff in A. destruct A; [now apply steep_ok|now apply slopes_ok]. Qed.
(** The ends of a piece *)
Definition at_end (r : piece) : Z := fold_right Z.add 0%Z (coeffs r).
Definition at_start (r : piece) : Z := fold_right Z.sub 0%Z (coeffs r).
Lemma chebT_one : forall n, chebT n 1 = 1 /\ chebT (S n) 1 = 1.
Proof. induction n as [|n [A B]]; [split; reflexivity|]. split; [assumption|]. rewrite chebT_SS, A, B. ring. Qed.
Lemma chebT_minus_one : forall n, chebT n (-1) = (-1) ^ n /\ chebT (S n) (-1) = (-1) ^ S n.
Proof. induction n as [|n [A B]]; [split; cbn; ring|]. split; [assumption|]. rewrite chebT_SS, A, B. cbn [pow]. ring. Qed.
Lemma tail_one : forall c k, cheb_tail k (map IZR c) 1 = IZR (fold_right Z.add 0%Z c).
Proof. induction c as [|a c IH]; intros k; cbn [map cheb_tail fold_right]; [reflexivity|]. rewrite IH, plus_IZR, (proj1 (chebT_one k)). ring. Qed.
Lemma tail_minus_one : forall c k, cheb_tail k (map IZR c) (-1) = (-1) ^ k * IZR (fold_right Z.sub 0%Z c).
Proof. induction c as [|a c IH]; intros k; cbn [map cheb_tail fold_right]; [ring|]. rewrite IH, minus_IZR, (proj1 (chebT_minus_one k)). cbn [pow]. ring. Qed.
Lemma end_value : forall r, good r = true -> expansion (cheb_of r) (e_max (cheb_of r)) * unit = IZR (at_end r) /\ expansion (cheb_of r) (e_min (cheb_of r)) * unit = IZR (at_start r).
Proof.
  intros r G. pose proof (good_proper r G) as [_ P]. rewrite !expansion_ev, !ev_power by assumption. unfold place. split.
  - replace (2 * _ - 1) with 1 by (field; lra). apply tail_one.
  - replace (2 * _ - 1) with (-1) by (field; lra). rewrite tail_minus_one. cbn [pow]. rewrite Rmult_1_l. reflexivity.
Qed.
