(** C47: the sample library. *)
From Coq Require Import ZArith List Bool String Reals.
From Coquelicot Require Import Coquelicot.
From Coq Require Import List.
From Verif Require Import Model.Outcome Model.Num Model.NumInst Model.FuncObj Model.BasisSet Model.Piecewise Model.CExpr Model.Samples
  Spec.Basis Spec.Funcs Spec.Piecewise Spec.Series Spec.Poly Proofs.PolyP Proofs.SampleSetsP Proofs.SampleFuncsP Proofs.SamplePiecesP Proofs.BowlP
  Proofs.SampleTextsP Proofs.SampleExamples.
Import ListNotations.
Local Open Scope string_scope.
Local Open Scope list_scope.
Local Open Scope R_scope.

(** C47. The monomial set offers x^n with its first two derivatives, however it was used and resized before; at most 30 terms. *)
Theorem C47_monomials : forall pw (d : R) N b0 b, (0 <= N)%Z -> monomial_set ROps pw d N = Ok b0 -> later d b0 b ->
  (0 <= bs_size b <= 30)%Z /\ offers b (fun n x => x ^ n).
Proof. exact monomials. Qed.
Print Assumptions C47_monomials.

(** C47. The Chebyshev set offers T_n. *)
Theorem C47_chebyshev : forall pw (d : R) N b0 b, (0 <= N)%Z -> chebyshev_set ROps pw d N = Ok b0 -> later d b0 b ->
  (0 <= bs_size b <= 30)%Z /\ offers b chebyshev.
Proof. exact chebyshevs. Qed.
Print Assumptions C47_chebyshev.

(** T_n is the polynomial with T_n(cos a) = cos(n a). *)
Theorem C47_chebyshev_cos : forall n a, chebyshev n (cos a) = cos (INR n * a).
Proof. exact chebyshev_cos. Qed.
Print Assumptions C47_chebyshev_cos.

(** C47. Either set can be built for every size up to 30; a larger request ends the program, unless it is too large for any vector
    (as a negative int is), which throws std::length_error. *)
Theorem C47_sizes : forall pw (d : R) N, (0 <= N)%Z ->
  if Z.leb N 30
  then (exists b, monomial_set ROps pw d N = Ok b /\ bs_size b = N) /\ (exists b, chebyshev_set ROps pw d N = Ok b /\ bs_size b = N)
  else monomial_set ROps pw d N = (if Z.ltb N (2 ^ 63) then Exit else Throw LengthError) /\
       chebyshev_set ROps pw d N = (if Z.ltb N (2 ^ 63) then Exit else Throw LengthError).
Proof. exact sizes. Qed.
Print Assumptions C47_sizes.

Example C47_case_sets : exists b0 b1 b2 b3 : bset R R, chebyshev_set ROps Rpower 0 5 = Ok b0 /\
  later 0 b0 b1 /\ later 0 b0 b3 /\ bs_size b1 = 5%Z /\ bs_size b3 = 20%Z /\
  bs_call 3 (1 / 2) b0 = RRet b1 (-1) /\ bs_resize 0 20 b1 = RRet b2 tt /\ bs_call_grad 10 1 b2 = RRet b3 100.
Proof. exact set_run. Qed.

(** C47. Quadratic is 1 + x + x^2 with its derivatives, whatever was evaluated before. *)
Theorem C47_quadratic : forall pw o, like o (quadratic ROps pw) -> represents 1 o quadratic_fun.
Proof. exact quadratic_represents. Qed.
Print Assumptions C47_quadratic.

(** C47. MyFunc is x^3 + x^2 y + x y^2 + y^3 with its partial derivatives. *)
Theorem C47_myfunc : forall pw o, like o (myfunc ROps pw) -> represents 2 o cubic_fun.
Proof. exact myfunc_represents. Qed.
Print Assumptions C47_myfunc.

Example C47_case_myfunc : exists o1 o2, evaluate QVal [2; -1] (myfunc ROps Rpower) = RRet o1 5 /\ like o1 (myfunc ROps Rpower) /\
  evaluate (QHess 0 1) [2; -1] o1 = RRet o2 2.
Proof. exact myfunc_run. Qed.

(** C47. MyPieceWiseFunc has a value everywhere: x left of the y axis, right of it x^2 + y^2 inside the circle of radius 1/2 and the distance from
    the origin less 1/4 outside. *)
Theorem C47_bowl_value : forall power, (forall a b, 0 < a -> power a b = Rpower a b) -> forall o x y, same_pieces_as o (mypiecewise ROps power) ->
  exists o', ask (pw_class fobj_class) QVal [x; y] o = RRet o' (bowl [x; y]) /\ same_pieces_as o' (mypiecewise ROps power).
Proof. exact bowl_value. Qed.
Print Assumptions C47_bowl_value.

(** C47. Off the y axis its gradient is the gradient, also on the circle; along the y axis, so is the derivative by y everywhere. *)
Theorem C47_bowl_gradient : forall power, (forall a b, 0 < a -> power a b = Rpower a b) -> forall o x y i, same_pieces_as o (mypiecewise ROps power) ->
  x <> 0 \/ i = 1%Z -> (0 <= i < 2)%Z ->
  exists o' g, ask (pw_class fobj_class) (QGrad i) [x; y] o = RRet o' g /\ same_pieces_as o' (mypiecewise ROps power) /\ partial bowl i [x; y] g.
Proof. exact bowl_gradient. Qed.
Print Assumptions C47_bowl_gradient.

(** C47. Off the y axis and, right of it, off the circle, its Hessian is the Hessian. *)
Theorem C47_bowl_hessian : forall power, (forall a b, 0 < a -> power a b = Rpower a b) -> forall o x y i j, same_pieces_as o (mypiecewise ROps power) ->
  x <> 0 -> x ^ 2 + y ^ 2 <> 1 / 4 \/ x < 0 -> (0 <= i < 2)%Z -> (0 <= j < 2)%Z ->
  exists o' h, ask (pw_class fobj_class) (QHess i j) [x; y] o = RRet o' h /\ same_pieces_as o' (mypiecewise ROps power) /\ second_near bowl i j [x; y] h.
Proof. exact bowl_hessian. Qed.
Print Assumptions C47_bowl_hessian.

Example C47_case_bowl : exists o, ask (pw_class fobj_class) (QGrad 0) [3; 4] (mypiecewise ROps Rpower) = RRet o (3 / 5) /\
  same_pieces_as o (mypiecewise ROps Rpower).
Proof. exact bowl_run. Qed.

(** C47. The gradient is a derivative at every point: false on the y axis, where the function jumps. *)
Theorem C47_bowl_gradient_everywhere_refuted : forall power, (forall a b, 0 < a -> power a b = Rpower a b) ->
  exists v i o g, ask (pw_class fobj_class) (QGrad i) v (mypiecewise ROps power) = RRet o g /\ ~ partial bowl i v g.
Proof. exact gradient_refuted. Qed.
Print Assumptions C47_bowl_gradient_everywhere_refuted.

(** C47. The Hessian is a derivative wherever the gradient is: false on the circle. *)
Theorem C47_bowl_hessian_everywhere_refuted : forall power, (forall a b, 0 < a -> power a b = Rpower a b) ->
  exists v i j o h, nth 0 v 0 <> 0 /\ ask (pw_class fobj_class) (QHess i j) v (mypiecewise ROps power) = RRet o h /\ ~ second_near bowl i j v h.
Proof. exact hessian_refuted. Qed.
Print Assumptions C47_bowl_hessian_everywhere_refuted.

(** C47. In any arithmetic, an argument that is neither less than nor at least 0 is in no piece. *)
Theorem C47_bowl_nan : forall (O : NumOps) power (x y : num O) q o,
  nltb O x (literal O 0 0) = false -> nleb O (literal O 0 0) x = false -> same_pieces_as o (mypiecewise O power) ->
  exists o', ask (pw_class fobj_class) q [x; y] o = RThrow o' DomainError /\ same_pieces_as o' (mypiecewise O power).
Proof. exact no_piece_at. Qed.
Print Assumptions C47_bowl_nan.

Example C47_case_nan : exists x : num FOps, nltb FOps x (literal FOps 0 0) = false /\ nleb FOps (literal FOps 0 0) x = false.
Proof. exact nan_case. Qed.

(** C47. Every polynomial class prints the C++ text it evaluates and a symbolic text for the same polynomial. *)
Theorem C47_polynomial_texts : forall c,
  In c (monomial_classes ++ chebyshev_classes ++ quadratic_classes ++ myfunc_classes ++ firstn 14 mypiecewisefunc_classes) ->
  texts_same c (fun _ _ _ => True).
Proof. exact polynomial_texts. Qed.
Print Assumptions C47_polynomial_texts.

(** C47. The classes of the third piece (the cone), away from the origin. *)
Theorem C47_cone_texts : forall c, In c (skipn 14 mypiecewisefunc_classes) ->
  texts_same c (fun pw x y => (forall a b, 0 < a -> pw a b = Rpower a b) /\ 0 < x ^ 2 + y ^ 2).
Proof. exact cone_texts. Qed.
Print Assumptions C47_cone_texts.

Example C47_case_texts : (List.length monomial_classes = 90)%nat /\ (List.length mypiecewisefunc_classes = 21)%nat /\
  In (mkSclass "MyFunc_hess_0_1" " 2.0*var[0]+2.0*var[1]" " 2.0*var[0]+2.0*var[1]" "2*y+2*x") myfunc_classes.
Proof. exact texts_case. Qed.
