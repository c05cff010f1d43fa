(** Specification vocabulary for the sample library: the Chebyshev polynomials, and derivatives near a point. *)
From Coq Require Import ZArith List Reals String.
From Coquelicot Require Import Coquelicot.
From Coq Require Import List.
From Verif Require Import Model.Outcome Model.Num Model.NumInst Model.Stream Model.FuncObj Model.BasisSet Model.Piecewise Model.CExpr Model.Samples Spec.Basis Spec.Funcs Spec.Piecewise Spec.Series.
Import ListNotations.
Local Open Scope R_scope.

(** T_0 = 1, T_1 = x, T_(n+2) = 2 x T_(n+1) - T_n. *)
Fixpoint chebyshev (n : nat) (x : R) : R :=
  match n with
  | 0%nat => 1
  | S m => match m with 0%nat => x | S k => 2 * x * chebyshev m x - chebyshev k x end
  end.

(** [b] offers the functions [f 0], [f 1], ..., one per term, with their first and second derivatives. *)
Definition offers (b : bset R R) (f : nat -> R -> R) : Prop :=
  forall t x, (0 <= t < bs_size b)%Z ->
    res_outcome (bs_call t x b) = Ok (f (Z.to_nat t) x) /\
    (exists g, res_outcome (bs_call_grad t x b) = Ok g /\ is_derive (f (Z.to_nat t)) x g) /\
    (exists h, res_outcome (bs_call_hess t x b) = Ok h /\ is_derive_n (f (Z.to_nat t)) 2 x h).

(** What a set may become in a client's hands: any evaluations and resizings, whether they return or throw. *)
Inductive later {X A : Type} (d : A) (b0 : bset X A) : bset X A -> Prop :=
| LaterNow : later d b0 b0
| LaterStep : forall b c b', later d b0 b -> (forall n, c = BResize n -> (0 <= n)%Z) ->
    (brun d c b = RRet b' tt \/ exists e, brun d c b = RThrow b' e) -> later d b0 b'.

(** [v] is the second partial derivative of [f] by [i], then [j], at [x]; the first one exists at least near [x] along coordinate [j]. *)
Definition second_near (f : list R -> R) (i j : Z) (x : list R) (v : R) : Prop :=
  exists D xj, nth_error x (Z.to_nat j) = Some xj /\
    locally xj (fun u : R => partial f i (lset x (Z.to_nat j) u) (D (lset x (Z.to_nat j) u))) /\ partial D j x v.

(** The object computes [f] on points of [n] coordinates, with its true first and second partial derivatives. *)
Definition represents (n : Z) (o : fobj (list R) R) (f : list R -> R) : Prop :=
  forall v, List.length v = Z.to_nat n ->
    res_outcome (evaluate QVal v o) = Ok (f v) /\
    (forall i, (0 <= i < n)%Z -> exists g, res_outcome (evaluate (QGrad i) v o) = Ok g /\ partial f i v g) /\
    (forall i j, (0 <= i < n)%Z -> (0 <= j < n)%Z -> exists h, res_outcome (evaluate (QHess i j) v o) = Ok h /\ second f i j v h).

(** What the sample functions stand for. *)
Definition quadratic_fun (v : list R) : R := let x := nth 0 v 0 in 1 + x + x ^ 2.
Definition cubic_fun (v : list R) : R := let x := nth 0 v 0 in let y := nth 1 v 0 in x ^ 3 + x ^ 2 * y + x * y ^ 2 + y ^ 3.

(** The sample piecewise function: a plane, a paraboloid and a cone. *)
Definition bowl (v : list R) : R :=
  let x := nth 0 v 0 in
  let y := nth 1 v 0 in
  if Rlt_dec x 0 then x else if Rlt_dec (x ^ 2 + y ^ 2) (1 / 4) then x ^ 2 + y ^ 2 else sqrt (x ^ 2 + y ^ 2) - 1 / 4.

(** [o] has the pieces of [o0]; stored results and the piece used last may be anything. *)
Definition same_pieces_as {V A : Type} (o o0 : pw V (fobj V A)) : Prop := exists l : cases V A, described built_from o l /\ described built_from o0 l.

(** The C++ text a class prints is the text it evaluates, and its symbolic text, read as a formula in x and y, has the same value. *)
Definition read_sym (c : sclass) : option cexpr := parse (symbolic [txt "x"; txt "y"]) (txt (sc_sym c)).
Definition texts_same (c : sclass) (P : (R -> R -> R) -> R -> R -> Prop) : Prop :=
  sc_csrc c = sc_eval c /\
  exists e s, code c = Some e /\ read_sym c = Some s /\
    forall pw x y, P pw x y -> exists a, ceval ROps pw [x; y] e = Ok a /\ ceval ROps pw [x; y] s = Ok a.
