(** What the theorems about the multifluid mixture models speak of. *)
From Coq Require Import Reals String Ascii List.
From Verif Require Import Json_model Vec_spec Cubic_model Cubic_spec Multi_model.
Import ListNotations.
Open Scope R_scope.

(** Two names that differ at most in the case of their (ASCII) letters. *)
Definition letter_pair (c d : ascii) : Prop :=
  exists k, (k < 26)%nat /\ nat_of_ascii c = (65 + k)%nat /\ nat_of_ascii d = (97 + k)%nat.
Inductive same_name : string -> string -> Prop :=
| same_empty : same_name EmptyString EmptyString
| same_letter : forall c d s t, c = d \/ letter_pair c d \/ letter_pair d c -> same_name s t ->
    same_name (String c s) (String d t).

(** A record of the database of binary pairs lists the pair (a, b), in this order, by
    hash, by name or by CAS number. *)
Inductive kind := ByHash | ByName | ByCAS.
Definition listed (k : kind) (el : json) (a b : string) : Prop :=
  match k with
  | ByHash => exists s t, j_at el "hash1" = Val (JStr s) /\ j_at el "hash2" = Val (JStr t) /\ same_name a s /\ same_name b t
  | ByName => exists s t, j_at el "Name1" = Val (JStr s) /\ j_at el "Name2" = Val (JStr t) /\ same_name a s /\ same_name b t
  | ByCAS => j_at el "CAS1" = Val (JStr a) /\ j_at el "CAS2" = Val (JStr b)
  end.
Definition listed_either (k : kind) (el : json) (a b : string) : Prop := listed k el a b \/ listed k el b a.
Definition preferred (k k' : kind) : Prop :=
  match k, k' with ByHash, ByName | ByHash, ByCAS | ByName, ByCAS => True | _, _ => False end.
(** A record with all the fields the look-up reads. *)
Definition complete_record (el : json) : Prop :=
  (exists s, j_at el "Name1" = Val (JStr s)) /\ (exists s, j_at el "Name2" = Val (JStr s)) /\
  (exists s, j_at el "CAS1" = Val (JStr s)) /\ (exists s, j_at el "CAS2" = Val (JStr s)) /\
  (j_contains el "hash1" = true -> (exists s, j_at el "hash1" = Val (JStr s)) /\ exists s, j_at el "hash2" = Val (JStr s)).

(** No two identifiers agree up to case. *)
Definition distinct (ids : list string) : Prop := forall i j, (i < length ids)%nat -> (j < length ids)%nat -> i <> j ->
  ~ same_name (nth i ids EmptyString) (nth j ids EmptyString).
(** The identifiers with which a mixture is looked up in the database. *)
Definition chosen_identifiers (pures : list json) (B flags : json) (ids : list string) : Prop :=
  exists set key, collect_identifiers pures = Val set /\ select_identifier B set flags = Val key /\ lookup key set = Some ids.

(** The parameters of a pair seen from the other component. *)
Definition reversed (p : bip) : bip :=
  {| b_betaT := / b_betaT p; b_gammaT := b_gammaT p; b_betaV := / b_betaV p; b_gammaV := b_gammaV p |}.

(** The mixing rule of Lemmon and Jacobsen for a binary mixture: linear in the pure
    values plus an excess term. *)
Definition Lemmon_Jacobsen (x1 x2 y1 y2 excess : R) : R := x1 * y1 + x2 * y2 + x1 * x2 * excess.

(** The components of [m'] are the components [r] of [m]. *)
Definition same_eos (e e' : eos) : Prop := forall tau delta, e tau delta = e' tau delta.
Definition matrix_pick (N : nat) (r : list nat) (q q' : nat -> nat -> R) : Prop :=
  forall i j, (i < N)%nat -> (j < N)%nat -> i <> j -> q' i j = q (nth i r O) (nth j r O).
Definition full_pick (N : nat) (r : list nat) (q q' : nat -> nat -> R) : Prop :=
  forall i j, (i < N)%nat -> (j < N)%nat -> q' i j = q (nth i r O) (nth j r O).
Definition reducing_relabelled (N : nat) (r : list nat) (a a' : reducing) : Prop :=
  match a, a' with
  | GERGreducing b Tc vc, GERGreducing b' Tc' vc' =>
      length Tc = N /\ length vc = N /\ Tc' = pick 0 r Tc /\ vc' = pick 0 r vc /\
      matrix_pick N r (m_betaT b) (m_betaT b') /\ matrix_pick N r (m_gammaT b) (m_gammaT b') /\
      matrix_pick N r (m_betaV b) (m_betaV b') /\ matrix_pick N r (m_gammaV b) (m_gammaV b')
  | Invariant pT lT pV lV Tc vc, Invariant pT' lT' pV' lV' Tc' vc' =>
      length Tc = N /\ length vc = N /\ Tc' = pick 0 r Tc /\ vc' = pick 0 r vc /\
      full_pick N r pT pT' /\ full_pick N r lT lT' /\ full_pick N r pV pV' /\ full_pick N r lV lV'
  | _, _ => False
  end.
Record relabelled (r : list nat) (m m' : multifluid) : Prop := {
  rl_red : reducing_relabelled (length (mf_eos m)) r (mf_red m) (mf_red m');
  rl_len : length (mf_eos m') = length (mf_eos m);
  rl_eos : forall i, (i < length (mf_eos m))%nat ->
     nth_error (mf_eos m') i = nth_error (mf_eos m) (nth i r O);
  rl_F : matrix_pick (length (mf_eos m)) r (mf_F m) (mf_F m');
  rl_dep : forall i j, (i < length (mf_eos m))%nat -> (j < length (mf_eos m))%nat -> i <> j ->
     same_eos (mf_dep m' i j) (mf_dep m (nth i r O) (nth j r O)) }.

(** Parameters of a pair that agree seen from either component. *)
Definition reciprocal (N : nat) (q : nat -> nat -> R) : Prop :=
  forall i j, (i < N)%nat -> (j < N)%nat -> i <> j -> q i j * q j i = 1.
Definition symmetric (N : nat) (q : nat -> nat -> R) : Prop :=
  forall i j, (i < N)%nat -> (j < N)%nat -> i <> j -> q i j = q j i.
Definition consistent_reducing (N : nat) (a : reducing) : Prop :=
  match a with
  | GERGreducing b Tc vc => reciprocal N (m_betaT b) /\ symmetric N (m_gammaT b) /\
                            reciprocal N (m_betaV b) /\ symmetric N (m_gammaV b)
  | Invariant _ _ _ _ _ _ => True
  end.
Record consistent (m : multifluid) : Prop := {
  co_red : consistent_reducing (length (mf_eos m)) (mf_red m);
  co_F : symmetric (length (mf_eos m)) (mf_F m);
  co_dep : forall i j, (i < length (mf_eos m))%nat -> (j < length (mf_eos m))%nat -> i <> j ->
     same_eos (mf_dep m i j) (mf_dep m j i) }.

(** [v] is one of the identifiers of the fluid file [j]: its name, CAS number, REFPROP
    name (unless there is none) or one of its aliases. *)
Definition field (j : json) (k v : string) : Prop := exists i, j_at j "INFO" = Val i /\ j_at i k = Val (JStr v).
Definition alias_of (j : json) (v : string) : Prop :=
  exists i l, j_at j "INFO" = Val i /\ j_at i "ALIASES" = Val (JArr l) /\ In (JStr v) l.
Definition identifies (j : json) (v : string) : Prop :=
  field j "NAME" v \/ field j "CAS" v \/ (field j "REFPROP_NAME" v /\ v <> "N/A"%string) \/
  (alias_of j v /\ ~ (v = "N/A"%string /\ field j "REFPROP_NAME" v)).

(** The textbook ancillary curve. *)
Definition ancillary_sum (n t : list R) (Theta : R) : R := sumn (length n) (fun i => nth i n 0 * Rpower Theta (nth i t 0)).
