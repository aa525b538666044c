(** Numerical building blocks:
    [include/teqp/math/finite_derivs.hpp], [include/teqp/math/quadrature.hpp],
    the Clenshaw evaluations of [include/teqp/models/multifluid_eosterms.hpp] and
    [include/teqp/algorithms/rootfinding.hpp].
    Scalars are modelled by real numbers. *)
From Coq Require Import Reals ZArith List Bool Lia.
From Verif Require Import Json_model.
Import ListNotations.
Open Scope R_scope.

(** ** Centered finite differences, finite_derivs.hpp lines 21-68 *)

(** The table [CentralDiffCoeffs] (lines 36-52): offsets and coefficients. An
    absent key of the [std::map] yields empty arrays. *)
Definition central_coeffs (Nderiv Norder : Z) : list Z * list R :=
  match Nderiv, Norder with
  | 1%Z, 2%Z => ([-1; 1]%Z, [-(1)/2; 1/2])
  | 1%Z, 4%Z => ([-2; -1; 1; 2]%Z, [1/12; -(2)/3; 2/3; -(1)/12])
  | 1%Z, 6%Z => ([-3; -2; -1; 1; 2; 3]%Z, [-(1)/60; 3/20; -(3)/4; 3/4; -(3)/20; 1/60])
  | 2%Z, 2%Z => ([-1; 0; 1]%Z, [1; -2; 1])
  | 2%Z, 4%Z => ([-2; -1; 0; 1; 2]%Z, [(-1)/12; 4/3; (-5)/2; 4/3; (-1)/12])
  | 2%Z, 6%Z => ([-3; -2; -1; 0; 1; 2; 3]%Z,
                 [1/90; (-3)/20; 3/2; (-49)/18; 3/2; (-3)/20; 1/90])
  | 3%Z, 2%Z => ([-2; -1; 0; 1; 2]%Z, [(-1)/2; 1; 0; -1; 1/2])
  | 3%Z, 4%Z => ([-3; -2; -1; 0; 1; 2; 3]%Z, [1/8; -1; 13/8; 0; (-13)/8; 1; (-1)/8])
  | 3%Z, 6%Z => ([-4; -3; -2; -1; 0; 1; 2; 3; 4]%Z,
                 [(-7)/240; 3/10; (-169)/120; 61/30; 0; (-61)/30; 169/120; (-3)/10; 7/240])
  | 4%Z, 2%Z => ([-2; -1; 0; 1; 2]%Z, [1; -4; 6; -4; 1])
  | 4%Z, 4%Z => ([-3; -2; -1; 0; 1; 2; 3]%Z, [-(1)/6; 2; -(13)/2; 28/3; -(13)/2; 2; -(1)/6])
  | 4%Z, 6%Z => ([-4; -3; -2; -1; 0; 1; 2; 3; 4]%Z,
                 [7/240; -(2)/5; 169/60; -(122)/15; 91/8; -(122)/15; 169/60; -(2)/5; 7/240])
  | _, _ => ([], [])
  end.

(** The accumulation loop, lines 62-65, over equally long arrays. *)
Fixpoint diff_sum (f : R -> R) (x h : R) (k : list Z) (c : list R) (num : R) : R :=
  match k, c with
  | ki :: k', ci :: c' => diff_sum f x h k' c' (num + ci * f (x + h * IZR ki))
  | _, _ => num
  end.

(** [centered_diff<Nderiv,Norder>(f,x,h)], lines 21-68. *)
Definition centered_diff (Nderiv Norder : Z) (f : R -> R) (x h : R) : res R :=
  let '(k, c) := central_coeffs Nderiv Norder in
  if Nat.eqb (length c) 0 then Err StdInvalidArgument
  else if negb (Nat.eqb (length c) (length k)) then Err StdInvalidArgument
  else Val (diff_sum f x h k c 0 / h ^ Z.to_nat Nderiv).

(** [centered_diff_xy], lines 70-73. *)
Definition centered_diff_xy (f : R -> R -> R) (x y dx dy : R) : R :=
  (f (x + dx) (y + dy) - f (x + dx) (y - dy) - f (x - dx) (y + dy) + f (x - dx) (y - dy))
  / (4 * dx * dy).

(** [gradient_forward], lines 75-84. *)
Fixpoint bump (i : nat) (h : R) (x : list R) : list R :=
  match x, i with
  | [], _ => []
  | a :: x', O => (a + h) :: x'
  | a :: x', S i' => a :: bump i' h x'
  end.
Definition gradient_forward (f : list R -> R) (x : list R) (h : R) : list R :=
  map (fun i => (f (bump i h x) - f x) / h) (seq 0 (length x)).

(** ** Gauss-Legendre quadrature, quadrature.hpp lines 15-69 *)

(** The table [xw], lines 19-56; an absent key makes [at] throw.
    The decimal entries are the decimal literals of the source. *)
Definition dec (n : Z) : R := IZR n / 10 ^ 16.
Definition gl7_x : list Z :=
  [0; 4058451513773972; -4058451513773972; -7415311855993945; 7415311855993945;
   -9491079123427585; 9491079123427585]%Z.
Definition gl7_w : list Z :=
  [4179591836734694; 3818300505051189; 3818300505051189; 2797053914892766;
   2797053914892766; 1294849661688697; 1294849661688697]%Z.
Definition gl10_x : list Z :=
  [-1488743389816312; 1488743389816312; -4333953941292472; 4333953941292472;
   -6794095682990244; 6794095682990244; -8650633666889845; 8650633666889845;
   -9739065285171717; 9739065285171717]%Z.
Definition gl10_w : list Z :=
  [2955242247147529; 2955242247147529; 2692667193099963; 2692667193099963;
   2190863625159820; 2190863625159820; 1494513491505806; 1494513491505806;
   666713443086881; 666713443086881]%Z.
Definition gl15_x : list Z :=
  [0; -2011940939974345; 2011940939974345; -3941513470775634; 3941513470775634;
   -5709721726085388; 5709721726085388; -7244177313601701; 7244177313601701;
   -8482065834104272; 8482065834104272; -9372733924007060; 9372733924007060;
   -9879925180204854; 9879925180204854]%Z.
Definition gl15_w : list Z :=
  [2025782419255613; 1984314853271116; 1984314853271116; 1861610000155622;
   1861610000155622; 1662692058169939; 1662692058169939; 1395706779261543;
   1395706779261543; 1071592204671719; 1071592204671719; 703660474881081; 703660474881081;
   307532419961173; 307532419961173]%Z.
Definition gl30_x : list Z :=
  [-514718425553177; 514718425553177; -1538699136085835; 1538699136085835;
   -2546369261678899; 2546369261678899; -3527047255308781; 3527047255308781;
   -4470337695380892; 4470337695380892; -5366241481420199; 5366241481420199;
   -6205261829892429; 6205261829892429; -6978504947933158; 6978504947933158;
   -7677774321048262; 7677774321048262; -8295657623827684; 8295657623827684;
   -8825605357920527; 8825605357920527; -9262000474292743; 9262000474292743;
   -9600218649683075; 9600218649683075; -9836681232797472; 9836681232797472;
   -9968934840746495; 9968934840746495]%Z.
Definition gl30_w : list Z :=
  [1028526528935588; 1028526528935588; 1017623897484055; 1017623897484055;
   995934205867953; 995934205867953; 963687371746443; 963687371746443; 921225222377861;
   921225222377861; 868997872010830; 868997872010830; 807558952294202; 807558952294202;
   737559747377052; 737559747377052; 659742298821805; 659742298821805; 574931562176191;
   574931562176191; 484026728305941; 484026728305941; 387991925696271; 387991925696271;
   287847078833234; 287847078833234; 184664683110910; 184664683110910; 79681924961666;
   79681924961666]%Z.
Definition gl_nodes (N : nat) : option (list R * list R) :=
  match N with
  | 3%nat => Some ([0; sqrt (3/5); - sqrt (3/5)], [8/9; 5/9; 5/9])
  | 4%nat => Some
      ([sqrt (3/7 - 2/7 * sqrt (6/5)); - sqrt (3/7 - 2/7 * sqrt (6/5));
        sqrt (3/7 + 2/7 * sqrt (6/5)); - sqrt (3/7 + 2/7 * sqrt (6/5))],
       [(18 + sqrt 30)/36; (18 + sqrt 30)/36; (18 - sqrt 30)/36; (18 - sqrt 30)/36])
  | 5%nat => Some
      ([0; 1/3 * sqrt (5 - 2 * sqrt (10/7)); - (1)/3 * sqrt (5 - 2 * sqrt (10/7));
        1/3 * sqrt (5 + 2 * sqrt (10/7)); - (1)/3 * sqrt (5 + 2 * sqrt (10/7))],
       [128/225; (322 + 13 * sqrt 70)/900; (322 + 13 * sqrt 70)/900;
        (322 - 13 * sqrt 70)/900; (322 - 13 * sqrt 70)/900])
  | 7%nat => Some (map dec gl7_x, map dec gl7_w)
  | 10%nat => Some (map dec gl10_x, map dec gl10_w)
  | 15%nat => Some (map dec gl15_x, map dec gl15_w)
  | 30%nat => Some (map dec gl30_x, map dec gl30_w)
  | _ => None
  end.

(** The loop, lines 63-66. *)
Fixpoint quad_sum (F : R -> R) (a b : R) (x w : list R) (summer : R) : R :=
  match x, w with
  | xi :: x', wi :: w' =>
      quad_sum F a b x' w' (summer + wi * F ((b - a) / 2 * xi + (a + b) / 2))
  | _, _ => summer
  end.

(** [quad<N>(F,a,b)]. *)
Definition quad (N : nat) (F : R -> R) (a b : R) : res R :=
  match gl_nodes N with
  | None => Err StdOutOfRange
  | Some (x, w) => Val ((b - a) / 2 * quad_sum F a b x w 0)
  end.

(** ** Clenshaw, multifluid_eosterms.hpp lines 259-318 *)

(** The loop of [Clenshaw1D] (lines 264-271) from index [k] down to 0, with the
    state (u_k, u_kp1, u_kp2); [k] is always smaller than [length c]. *)
Fixpoint clenshaw_loop (c : list R) (ind : R) (k : nat) (u_kp1 u_kp2 : R) : R * R :=
  let u_k := 2 * ind * u_kp1 - u_kp2 + nth k c 0 in
  match k with
  | O => (u_k, u_kp2)
  | S k' => clenshaw_loop c ind k' u_k u_kp1
  end.
Definition Clenshaw1D (c : list R) (ind : R) : R :=
  match length c with
  | O => (0 - 0) / 2
  | S N => let '(u_k, u_kp2) := clenshaw_loop c ind N 0 0 in (u_k - u_kp2) / 2
  end.

(** Elementwise combination of rows; sizes must agree ([None] = Eigen
    assertion / undefined behaviour). *)
Fixpoint row_comb (ind : R) (u1 u2 c : list R) : option (list R) :=
  match u1, u2, c with
  | [], [], [] => Some []
  | a :: u1', b :: u2', d :: c' =>
      match row_comb ind u1' u2' c' with
      | Some r => Some ((2 * ind * a - b + d) :: r)
      | None => None
      end
  | _, _, _ => None
  end.
Fixpoint row_half (u v : list R) : list R :=
  match u, v with a :: u', b :: v' => (a - b) / 2 :: row_half u' v' | _, _ => [] end.

(** [Clenshaw1DByRow], lines 276-300, for dynamically sized matrices: the work
    arrays have length [c.rows()] (line 284). *)
Fixpoint by_row_loop (c : list (list R)) (ind : R) (k : nat) (u1 u2 : list R)
  : option (list R * list R) :=
  match row_comb ind u1 u2 (nth k c []) with
  | None => None
  | Some u_k => match k with
                | O => Some (u_k, u2)
                | S k' => by_row_loop c ind k' u_k u1
                end
  end.
Definition Clenshaw1DByRow (c : list (list R)) (ind : R) : option (list R) :=
  let M := length c in
  match M with
  | O => Some []
  | S N => match by_row_loop c ind N (repeat 0 M) (repeat 0 M) with
           | None => None
           | Some (u_k, u_kp2) => Some (row_half u_k u_kp2)
           end
  end.

(** [Clenshaw2DEigen], lines 307-311. *)
Definition Clenshaw2D (a : list (list R)) (x y : R) : option R :=
  match Clenshaw1DByRow a y with
  | None => None
  | Some b => Some (Clenshaw1D b x)
  end.

(** [Chebyshev2DEOSTerm::alphar], lines 313-318. *)
Definition chebyshev2D_alphar (a : list (list R)) (taumin taumax deltamin deltamax tau delta : R)
  : option R :=
  Clenshaw2D a ((2 * tau - (taumax + taumin)) / (taumax - taumin))
               ((2 * delta - (deltamax + deltamin)) / (deltamax - deltamin)).

(** ** [NewtonRaphson], rootfinding.hpp lines 5-29.
    [f] is the user's residual, [dir x r0] the direction obtained from the
    forward-difference Jacobian and the QR solve (external), [norm] the
    2-norm of the residual, [None] if it is not finite. *)
(** The loop bound, line 10. *)
Definition nr_maxiter : nat := 30.

Section NR.
Variable V : Type.
Variable f : V -> V.
Variable dir : V -> V -> V.
Variable add : V -> V -> V.
Variable norm : V -> option R.

Fixpoint nr_loop (iters : nat) (x : V) (tol : R) : res V :=
  match iters with
  | O => Val x
  | S n =>
      let r0 := f x in
      let v := dir x r0 in
      let x' := add x v in
      match norm r0 with
      | None => Err StdInvalidArgument
      | Some err => if Rlt_dec err tol then Val x' else nr_loop n x' tol
      end
  end.
Definition NewtonRaphson (args : V) (tol : R) : res V := nr_loop nr_maxiter args tol.
End NR.

(** The forward-difference Jacobian, rootfinding.hpp lines 11-16, as the list
    of its columns; [dri = max(1e-6 x_i, 1e-8)]. *)
Definition nr_dri (xi : R) : R := Rmax (1 / 10 ^ 6 * xi) (1 / 10 ^ 8).
Fixpoint vzip (g : R -> R -> R) (u v : list R) : list R :=
  match u, v with a :: u', b :: v' => g a b :: vzip g u' v' | _, _ => [] end.
Definition nr_jac (f : list R -> list R) (x : list R) : list (list R) :=
  map (fun i => let h := nr_dri (nth i x 0) in
                vzip (fun a b => (a - b) / h) (f (bump i h x)) (f x))
      (seq 0 (length x)).
(** [J.colPivHouseholderQr().solve(-r0)] is the external [solve]. *)
Definition nr_dir (solve : list (list R) -> list R -> list R) (f : list R -> list R)
  (x r0 : list R) : list R := solve (nr_jac f x) (map Ropp r0).
Definition NewtonRaphson_vec (solve : list (list R) -> list R -> list R)
  (norm : list R -> option R) (f : list R -> list R) (args : list R) (tol : R) : res (list R) :=
  NewtonRaphson (list R) f (nr_dir solve f) (vzip Rplus) norm args tol.
